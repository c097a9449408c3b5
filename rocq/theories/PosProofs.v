From Coq Require Import Permutation Sorting.
From Verif Require Import Py PyFacts InfoModel InfoSpec InfoProofs PosModel PosSpec.

Definition ign_names (ig : option ignored_info) : option (list pystr) := option_map ig_events ig.

Definition idxs_where (p : pystr -> bool) : nat -> list pystr -> list nat :=
  fix go i t := match t with
                | [] => []
                | n :: t' => if p n then i :: go (S i) t' else go (S i) t'
                end.
Definition idxs (e : pystr) := idxs_where (eqs e).

Lemma idxs_ge p i t j : In j (idxs_where p i t) -> i <= j.
Proof.
  revert i; induction t as [|n t IH]; intros i; cbn; [intros []|].
  destruct (p n); [intros [->|H]; [lia|]|intros H]; apply IH in H; lia.
Qed.

Lemma idxs_In p i t j : In j (idxs_where p i t) <-> i <= j /\ exists n, nth_error t (j - i) = Some n /\ p n = true.
Proof.
  revert i; induction t as [|n t IH]; intros i; cbn [idxs_where].
  - split; [intros []|]. intros [_ [n [H _]]]. destruct (j - i); discriminate.
  - assert (Hs : In j (idxs_where p (S i) t) <-> S i <= j /\ exists m, nth_error (n :: t) (j - i) = Some m /\ p m = true).
    { rewrite IH. split; intros [H1 [m [H2 H3]]]; (split; [exact H1|exists m; split; [|exact H3]]).
      - replace (j - i) with (S (j - S i)) by lia. exact H2.
      - replace (j - i) with (S (j - S i)) in H2 by lia. exact H2. }
    destruct (p n) eqn:E.
    + cbn [In]. rewrite Hs. split.
      * intros [->|[H1 H2]]; [|split; [lia|exact H2]]. split; [lia|]. exists n. rewrite Nat.sub_diag. auto.
      * intros [H1 H2]. destruct (Nat.eq_dec i j) as [|Hn]; [left; assumption|right]. split; [lia|exact H2].
    + rewrite Hs. split.
      * intros [H1 H2]. split; [lia|exact H2].
      * intros [H1 [m [H2 H3]]]. destruct (Nat.eq_dec i j) as [->|Hn].
        -- rewrite Nat.sub_diag in H2. cbn in H2. congruence.
        -- split; [lia|eauto].
Qed.

Lemma idxs_sorted p i t : StronglySorted lt (idxs_where p i t).
Proof.
  revert i; induction t as [|n t IH]; intros i; cbn; [constructor|].
  destruct (p n); [constructor|]; try apply IH. apply Forall_forall. intros j Hj. apply idxs_ge in Hj. lia.
Qed.

Lemma sorted_lt_NoDup l : StronglySorted lt l -> NoDup l.
Proof.
  induction 1 as [|x l H IH F]; constructor; [|exact IH]. intros Hin. rewrite Forall_forall in F. specialize (F x Hin). lia.
Qed.

Lemma sorted_lt_le l : StronglySorted lt l -> StronglySorted le l.
Proof. induction 1 as [|x l H IH F]; constructor; [exact IH|]. eapply Forall_impl; [|exact F]. intros; lia. Qed.

Lemma insert_nat_perm x l : Permutation (x :: l) (insert_nat x l).
Proof.
  induction l as [|y l IH]; cbn; [reflexivity|]. destruct (x <=? y); [reflexivity|].
  rewrite perm_swap. constructor. exact IH.
Qed.

Lemma sort_nat_perm l : Permutation l (sort_nat l).
Proof. induction l as [|x l IH]; cbn; [reflexivity|]. rewrite <- insert_nat_perm. constructor. exact IH. Qed.

Lemma insert_nat_sorted x l : StronglySorted le l -> StronglySorted le (insert_nat x l).
Proof.
  induction 1 as [|y l H IH F]; cbn; [repeat constructor|].
  destruct (Nat.leb_spec x y).
  - constructor; [constructor; assumption|]. constructor; [exact H0|]. eapply Forall_impl; [|exact F]. cbn; intros; lia.
  - constructor; [exact IH|]. rewrite Forall_forall in *. intros z Hz.
    apply (Permutation_in _ (Permutation_sym (insert_nat_perm x l))) in Hz. destruct Hz as [<-|Hz]; [lia|auto].
Qed.

Lemma sort_nat_sorted l : StronglySorted le (sort_nat l).
Proof. induction l as [|x l IH]; cbn; [constructor|]. apply insert_nat_sorted, IH. Qed.

Lemma sorted_perm_eq l1 : forall l2, StronglySorted le l1 -> StronglySorted le l2 -> Permutation l1 l2 -> l1 = l2.
Proof.
  induction l1 as [|x l1 IH]; intros l2 H1 H2 P.
  - apply Permutation_nil in P. congruence.
  - destruct l2 as [|y l2]; [symmetry in P; apply Permutation_nil in P; discriminate|].
    inversion H1 as [|? ? S1 F1]; subst. inversion H2 as [|? ? S2 F2]; subst.
    rewrite Forall_forall in F1, F2.
    assert (E : x = y).
    { assert (Hx : In x (y :: l2)) by (apply (Permutation_in _ P); left; reflexivity).
      assert (Hy : In y (x :: l1)) by (apply (Permutation_in _ (Permutation_sym P)); left; reflexivity).
      destruct Hx as [Hx|Hx]; [congruence|]. destruct Hy as [Hy|Hy]; [congruence|].
      specialize (F1 y Hy). specialize (F2 x Hx). lia. }
    subst y. f_equal. apply IH; try assumption. apply Permutation_cons_inv in P. exact P.
Qed.

Definition getl (d : dict pystr (list nat)) (x : pystr) : list nat :=
  match dget str_eq_dec d x with Some l => l | None => [] end.

Lemma getl_dpush d n i x : getl (dpush str_eq_dec d n i) x = getl d x ++ (if eqs x n then [i] else []).
Proof.
  unfold getl. rewrite dget_dpush. unfold eqs. destruct (str_eq_dec n x) as [->|Hn].
  - destruct (str_eq_dec x x); [|congruence]. destruct (dget str_eq_dec d x); reflexivity.
  - destruct (str_eq_dec x n); [congruence|]. rewrite app_nil_r. reflexivity.
Qed.

Lemma positions_getl i t d x : getl (positions_from i t d) x = getl d x ++ idxs x i t.
Proof.
  revert i d; induction t as [|n t IH]; intros i d; cbn [positions_from idxs_where idxs].
  - unfold idxs; cbn. rewrite app_nil_r. reflexivity.
  - rewrite IH, getl_dpush. unfold idxs; cbn. destruct (eqs x n); cbn; rewrite <- app_assoc; reflexivity.
Qed.

Lemma str_mem_false x l : str_mem x l = false <-> ~ In x l.
Proof. rewrite <- str_mem_In. destruct (str_mem x l); split; congruence. Qed.

Lemma eqs_eq a b : eqs a b = true <-> a = b.
Proof. unfold eqs; destruct (str_eq_dec a b); split; congruence. Qed.

Lemma ignored_sorted S t : NoDup S ->
  sort_nat (flat_map (fun x => idxs x 0 t) S) = idxs_where (fun n => str_mem n S) 0 t.
Proof.
  intros Hnd. apply sorted_perm_eq.
  - apply sort_nat_sorted.
  - apply sorted_lt_le, idxs_sorted.
  - rewrite <- sort_nat_perm. apply NoDup_Permutation.
    + clear - Hnd. induction Hnd as [|x S Hx Hnd IH]; cbn; [constructor|].
      assert (D : forall j, In j (idxs x 0 t) -> In j (flat_map (fun x => idxs x 0 t) S) -> False).
      { intros j H1 H2. apply in_flat_map in H2. destruct H2 as [y [Hy H2]].
        apply idxs_In in H1. apply idxs_In in H2. destruct H1 as [_ [a [A1 A2]]], H2 as [_ [b [B1 B2]]].
        apply eqs_eq in A2. apply eqs_eq in B2. assert (a = b) by congruence. subst. contradiction. }
      revert D. generalize (flat_map (fun x => idxs x 0 t) S) IH.
      assert (Hi : NoDup (idxs x 0 t)) by apply sorted_lt_NoDup, idxs_sorted. revert Hi. generalize (idxs x 0 t).
      clear. intros l Hl m Hm D. induction Hl as [|y l Hy Hl IH]; [exact Hm|]. cbn. constructor.
      * rewrite in_app_iff. intros [H|H]; [contradiction|]. apply (D y); [left; reflexivity|exact H].
      * apply IH. intros j H1 H2. apply (D j); [right; exact H1|exact H2].
    + apply sorted_lt_NoDup, idxs_sorted.
    + intros j. rewrite in_flat_map, idxs_In. split.
      * intros [x [Hx H]]. apply idxs_In in H. destruct H as [H1 [n [H2 H3]]]. split; [exact H1|].
        exists n. split; [exact H2|]. apply eqs_eq in H3. subst. apply str_mem_In. exact Hx.
      * intros [H1 [n [H2 H3]]]. apply str_mem_In in H3. exists n. split; [exact H3|]. apply idxs_In.
        split; [exact H1|]. exists n. split; [exact H2|]. apply eqs_eq. reflexivity.
Qed.

Definition in_ig (ig : option (list pystr)) (n : pystr) : bool := is_ignored ig n.

Lemma kept_in_ig ig n t : kept ig (n :: t) = if in_ig ig n then kept ig t else n :: kept ig t.
Proof. apply is_ignored_kept. Qed.

Lemma skip_below p rest k : Forall (fun q => p <= q) rest -> skip_smaller p rest k = (rest, k).
Proof.
  destruct rest as [|q rest]; cbn [skip_smaller]; [reflexivity|]. intros H. inversion H; subst.
  destruct (Nat.ltb_spec q p); [lia|reflexivity].
Qed.

Lemma two_pointers_drop ours q rest k probs :
  Forall (fun p => q < p) ours -> two_pointers ours (q :: rest) k probs = two_pointers ours rest (S k) probs.
Proof.
  destruct ours as [|p ours]; [reflexivity|]. intros H. inversion H; subst.
  cbn [two_pointers skip_smaller]. destruct (Nat.ltb_spec q p); [|lia]. reflexivity.
Qed.

Lemma two_pointers_kept ig e t : in_ig ig e = false -> forall i k probs, k <= i ->
  two_pointers (idxs e i t) (idxs_where (in_ig ig) i t) k probs =
  loopM incr_at (map Z.of_nat (idxs e (i - k) (kept ig t))) probs.
Proof.
  intros He. unfold idxs. induction t as [|n t IH]; intros i k probs Hk; [reflexivity|].
  rewrite kept_in_ig. cbn [idxs_where]. destruct (eqs e n) eqn:E.
  - apply eqs_eq in E. subst n. rewrite He. cbn [idxs_where]. rewrite (proj2 (eqs_eq e e) eq_refl).
    cbn [two_pointers map loopM]. rewrite skip_below.
    + rewrite <- Nat2Z.inj_sub by exact Hk. destruct (incr_at probs (Z.of_nat (i - k))); cbn [bind]; [|reflexivity].
      rewrite IH by lia. replace (S i - k) with (S (i - k)) by lia. reflexivity.
    + apply Forall_forall. intros q Hq. apply idxs_ge in Hq. lia.
  - destruct (in_ig ig n) eqn:Ei.
    + rewrite two_pointers_drop.
      * rewrite IH by lia. cbn [Nat.sub]. reflexivity.
      * apply Forall_forall. intros q Hq. apply idxs_ge in Hq. lia.
    + rewrite IH by lia. cbn [idxs_where]. rewrite E. replace (S i - k) with (S (i - k)) by lia. reflexivity.
Qed.

Lemma slow_events_eq e ig t : in_ig (ign_names ig) e = false -> forall v index b,
  slow_events e ig t v index b =
  bind (loopM set_one (map Z.of_nat (idxs e index (kept (ign_names ig) t))) v)
       (fun v' => Ok (v', b && match kept (ign_names ig) t with [] => true | _ => false end)).
Proof.
  intros He. unfold idxs. induction t as [|n t IH]; intros v index b.
  - cbn. rewrite andb_true_r. reflexivity.
  - cbn [slow_events]. rewrite kept_in_ig. unfold in_ig, ign_names in *. destruct (is_ignored (option_map ig_events ig) n) eqn:Ei.
    + apply IH.
    + cbn [idxs_where]. unfold str_eqb, eqs. destruct (str_eq_dec n e) as [->|Hn].
      * destruct (str_eq_dec e e); [|congruence]. cbn [map loopM].
        destruct (set_one v (Z.of_nat index)); cbn [bind]; [|reflexivity]. rewrite IH. rewrite andb_false_r. reflexivity.
      * destruct (str_eq_dec e n); [congruence|]. cbn [bind]. rewrite IH, andb_false_r. reflexivity.
Qed.

(* ---- vectors ---- *)
Lemma py_index_nat len i : i < len -> py_index len (Z.of_nat i) = Ok i.
Proof.
  intros H. unfold py_index. destruct (Z.ltb_spec (Z.of_nat i) 0); [lia|].
  destruct (Z.leb_spec 0 (Z.of_nat i)); [|lia]. destruct (Z.ltb_spec (Z.of_nat i) (Z.of_nat len)); [|lia].
  cbn. rewrite Nat2Z.id. reflexivity.
Qed.

Lemma upd_length {A} (l : list A) i f : length (upd l i f) = length l.
Proof.
  unfold upd. rewrite app_length, firstn_length. destruct (skipn i l) eqn:E.
  - apply (f_equal (@length A)) in E. rewrite skipn_length in E. cbn in *. lia.
  - apply (f_equal (@length A)) in E. rewrite skipn_length in E. cbn in *. lia.
Qed.

Lemma upd_nth (l : list nat) i f j : i < length l ->
  nth j (upd l i f) 0 = if j =? i then f (nth j l 0) else nth j l 0.
Proof.
  revert i j; induction l as [|x l IH]; intros i j H; [cbn in H; lia|].
  destruct i as [|i].
  - unfold upd; cbn. destruct j; reflexivity.
  - unfold upd; cbn [firstn skipn app]. destruct j as [|j]; [reflexivity|]. cbn [nth Nat.eqb].
    apply IH. cbn in H. lia.
Qed.

Lemma loop_update (op : list nat -> Z -> result (list nat)) (f : nat -> nat) p :
  (forall v i, op v i = bind (py_index (length v) i) (fun j => Ok (upd v j f))) ->
  forall l i v, i + length l <= length v ->
  exists v', loopM op (map Z.of_nat (idxs_where p i l)) v = Ok v' /\ length v' = length v /\
    forall j, nth j v' 0 = if (i <=? j) && match nth_error l (j - i) with Some n => p n | None => false end
                           then f (nth j v 0) else nth j v 0.
Proof.
  intros Hop. induction l as [|n l IH]; intros i v Hl; cbn [idxs_where map].
  - exists v. split; [reflexivity|split; [reflexivity|]]. intros j.
    destruct (j - i); rewrite andb_false_r; reflexivity.
  - cbn [length] in Hl.
    assert (Hnth : forall j, S i <= j -> nth_error (n :: l) (j - i) = nth_error l (j - S i)).
    { intros j Hj. replace (j - i) with (S (j - S i)) by lia. reflexivity. }
    destruct (p n) eqn:E.
    + cbn [map loopM]. rewrite Hop, py_index_nat by lia. cbn [bind].
      destruct (IH (S i) (upd v i f)) as [v' [H1 [H2 H3]]]; [rewrite upd_length; lia|].
      exists v'. split; [exact H1|]. rewrite upd_length in H2. split; [exact H2|].
      intros j. rewrite H3. rewrite upd_nth by lia.
      destruct (Nat.eqb_spec j i) as [->|Hn].
      * destruct (Nat.leb_spec (S i) i); [lia|]. destruct (Nat.leb_spec i i); [|lia]. rewrite Nat.sub_diag. cbn. rewrite E. reflexivity.
      * destruct (Nat.leb_spec (S i) j); destruct (Nat.leb_spec i j); try lia; [|reflexivity].
        rewrite Hnth by lia. reflexivity.
    + destruct (IH (S i) v) as [v' [H1 [H2 H3]]]; [lia|]. exists v'. split; [exact H1|split; [exact H2|]].
      intros j. rewrite H3. destruct (Nat.eqb_spec j i) as [->|Hn].
      * destruct (Nat.leb_spec (S i) i); [lia|]. rewrite Nat.sub_diag. cbn. rewrite E, andb_false_r. reflexivity.
      * destruct (Nat.leb_spec (S i) j); destruct (Nat.leb_spec i j); try lia; [|reflexivity].
        rewrite Hnth by lia. reflexivity.
Qed.

Definition hit (e : pystr) (t : list pystr) (j : nat) : nat := if is_at e j t then 1 else 0.

Lemma incr_loop e l v : length l <= length v ->
  exists v', loopM incr_at (map Z.of_nat (idxs e 0 l)) v = Ok v' /\ length v' = length v /\
    forall j, nth j v' 0 = nth j v 0 + hit e l j.
Proof.
  intros H. destruct (loop_update incr_at S (eqs e) (fun v i => eq_refl) l 0 v H) as [v' [H1 [H2 H3]]].
  exists v'. split; [exact H1|split; [exact H2|]]. intros j. rewrite H3. unfold hit, is_at. cbn. rewrite Nat.sub_0_r.
  destruct (nth_error l j) as [n|]; [destruct (eqs e n)|]; lia.
Qed.

Lemma set_loop e l n : length l <= n ->
  exists v', loopM set_one (map Z.of_nat (idxs e 0 l)) (repeat 0 n) = Ok v' /\ length v' = n /\
    forall j, nth j v' 0 = hit e l j.
Proof.
  intros H. destruct (loop_update set_one (fun _ => 1) (eqs e) (fun v i => eq_refl) l 0 (repeat 0 n)) as [v' [H1 [H2 H3]]];
    [rewrite repeat_length; exact H|]. rewrite repeat_length in H2.
  exists v'. split; [exact H1|split; [exact H2|]]. intros j. rewrite H3. unfold hit, is_at. cbn. rewrite Nat.sub_0_r.
  rewrite nth_repeat. destruct (nth_error l j) as [m|]; [destruct (eqs e m)|]; reflexivity.
Qed.

(* ---- maximal length ---- *)
Lemma fold_max_list l a : fold_left Z.max (map Z.of_nat l) (Z.of_nat a) = Z.of_nat (Nat.max a (list_max l)).
Proof.
  revert a; induction l as [|x l IH]; intros a; cbn [map fold_left].
  - cbn. f_equal. lia.
  - rewrite <- Nat2Z.inj_max, IH. f_equal. change (list_max (x :: l)) with (Nat.max x (list_max l)). lia.
Qed.

Lemma count_ignored S t : NoDup S ->
  list_sum (map (count_occ str_eq_dec t) S) + length (kept (Some S) t) = length t.
Proof.
  intros Hnd. induction t as [|n t IH].
  - cbn. replace (list_sum (map (fun _ => 0) S)) with 0; [reflexivity|]. clear. induction S; [reflexivity|exact IHS].
  - rewrite is_ignored_kept. unfold is_ignored.
    assert (E : list_sum (map (count_occ str_eq_dec (n :: t)) S) =
                (if str_mem n S then 1 else 0) + list_sum (map (count_occ str_eq_dec t) S)).
    { clear IH. induction Hnd as [|x S Hx Hnd IHS]; [reflexivity|].
      change (list_sum (map (count_occ str_eq_dec (n :: t)) (x :: S)))
        with (count_occ str_eq_dec (n :: t) x + list_sum (map (count_occ str_eq_dec (n :: t)) S)).
      change (list_sum (map (count_occ str_eq_dec t) (x :: S)))
        with (count_occ str_eq_dec t x + list_sum (map (count_occ str_eq_dec t) S)).
      rewrite IHS. cbn [count_occ str_mem existsb]. unfold str_eqb at 1.
      destruct (str_eq_dec n x) as [->|Hn]; cbn [orb].
      - assert (str_mem x S = false) by (apply str_mem_false; exact Hx). unfold str_mem in *. rewrite H. lia.
      - change (existsb (str_eqb n) S) with (str_mem n S). destruct (str_mem n S); cbn [orb]; lia. }
    rewrite E. cbn [length]. destruct (str_mem n S); cbn [length]; lia.
Qed.

Lemma fold_Zadd l a : fold_left Z.add (map Z.of_nat l) a = (a + Z.of_nat (list_sum l))%Z.
Proof.
  revert a; induction l as [|x l IH]; intros a; cbn [map fold_left]; [cbn; lia|].
  rewrite IH. change (list_sum (x :: l)) with (x + list_sum l). lia.
Qed.

Definition ig_valid (log : names_log) (ig : option ignored_info) : Prop :=
  match ig with
  | None => True
  | Some i => NoDup (ig_events i) /\ ig_counts i = calculate_events_in_each_trace log
  end.

Lemma ignored_max_eq log S : NoDup S ->
  ignored_max_vector_length (mkIgn S (calculate_events_in_each_trace log)) = Z.of_nat (longest log (Some S)).
Proof.
  intros Hnd. unfold ignored_max_vector_length, longest. cbn [ig_events ig_counts].
  assert (E : forall m, fold_left (fun m tc =>
      Z.max m (Z.of_nat (tc_overall tc) -
        fold_left Z.add (map (fun x => match dget str_eq_dec (tc_counts tc) x with
                                       | Some c => Z.of_nat c | None => 0%Z end) S) 0)%Z)
      (calculate_events_in_each_trace log) m =
    fold_left Z.max (map Z.of_nat (map (fun t => length (kept (Some S) t)) log)) m).
  { unfold calculate_events_in_each_trace. induction log as [|t log IH]; intros m; [reflexivity|].
    cbn [map fold_left]. rewrite IH. f_equal. cbn [tc_overall tc_counts]. f_equal.
    replace (map _ S) with (map Z.of_nat (map (count_occ str_eq_dec t) S)).
    - rewrite fold_Zadd. pose proof (count_ignored S t Hnd). lia.
    - rewrite map_map. apply map_ext. intros x. pose proof (counter_get str_eq_dec t x) as G. unfold counter in G. rewrite G.
      destruct (Nat.eqb_spec (count_occ str_eq_dec t x) 0) as [E|E]; [rewrite E|]; reflexivity. }
  rewrite E. change 0%Z with (Z.of_nat 0). rewrite fold_max_list. reflexivity.
Qed.

Lemma kept_None t : kept None t = t.
Proof. unfold kept. induction t as [|x t IH]; cbn; [reflexivity|]. rewrite IH. reflexivity. Qed.

Lemma max_vector_length_eq log ig : log <> [] -> ig_valid log ig ->
  max_vector_length log ig = Ok (Z.of_nat (longest log (ign_names ig))).
Proof.
  intros Hne Hv. destruct ig as [[S tc]|]; cbn [max_vector_length ign_names option_map ig_events].
  - destruct Hv as [Hnd Ht]. cbn in Hnd, Ht. subst tc. rewrite ignored_max_eq by exact Hnd. reflexivity.
  - destruct log as [|t log]; [congruence|]. cbn [map py_max]. unfold longest. cbn [map list_max fold_right].
    rewrite <- (map_map (@length pystr) Z.of_nat), fold_max_list. do 2 f_equal. rewrite kept_None.
    unfold list_max. f_equal. f_equal. apply map_ext. intros x. rewrite kept_None. reflexivity.
Qed.

Lemma longest_ge log ign t : In t log -> length (kept ign t) <= longest log ign.
Proof.
  intros H. unfold longest. assert (F := list_max_le (map (fun t => length (kept ign t)) log) (longest log ign)).
  unfold longest in F. destruct F as [F _]. specialize (F (le_n _)). rewrite Forall_forall in F.
  apply F. apply in_map_iff. eauto.
Qed.

(* ---- the two loops ---- *)
Definition nonempty (ign : option (list pystr)) (t : list pystr) : nat := match kept ign t with [] => 0 | _ => 1 end.

Lemma fast_trace_eq log e ig t probs ne :
  ig_valid log ig -> in_ig (ign_names ig) e = false -> length (kept (ign_names ig) t) <= length probs ->
  exists probs', fast_trace e ig (probs, ne) (mkTP (positions_from 0 t []) (length t)) =
                   Ok (probs', nonempty (ign_names ig) t + ne) /\
    length probs' = length probs /\
    forall j, nth j probs' 0 = nth j probs 0 + hit e (kept (ign_names ig) t) j.
Proof.
  intros Hv He Hl. unfold fast_trace. cbn [tp_positions tp_length].
  set (ignored := match ig with None => [] | Some i => _ end).
  assert (Hig : sort_nat ignored = idxs_where (in_ig (ign_names ig)) 0 t).
  { unfold ignored. destruct ig as [[S tc]|]; cbn [ign_names option_map ig_events].
    - destruct Hv as [Hnd _]. cbn in Hnd. change (in_ig (Some S)) with (fun n => str_mem n S). rewrite <- ignored_sorted by exact Hnd. f_equal.
      apply flat_map_ext. intros x. change (getl (positions_from 0 t []) x = idxs x 0 t). rewrite positions_getl. reflexivity.
    - cbn. assert (H : forall i, idxs_where (in_ig None) i t = []); [|rewrite H; reflexivity].
      clear. induction t as [|n t IH]; intros i; cbn; [reflexivity|]. apply IH. }
  assert (Hlen : length ignored + length (kept (ign_names ig) t) = length t).
  { rewrite (Permutation_length (sort_nat_perm ignored)), Hig. generalize 0 as i. clear.
    induction t as [|n t IH]; intros i; [reflexivity|]. rewrite kept_in_ig. cbn [idxs_where length].
    specialize (IH (S i)). destruct (in_ig (ign_names ig) n); cbn [length]; lia. }
  destruct (Nat.eqb_spec (length ignored) (length t)) as [E|E].
  - assert (K : kept (ign_names ig) t = []) by (apply length_zero_iff_nil; lia).
    exists probs. unfold nonempty. rewrite K. split; [reflexivity|split; [reflexivity|]].
    intros j. unfold hit, is_at. destruct j; cbn; lia.
  - assert (K : nonempty (ign_names ig) t = 1). { unfold nonempty. destruct (kept (ign_names ig) t); [cbn in Hlen; lia|reflexivity]. }
    rewrite K.
    assert (Hours : getl (positions_from 0 t []) e = idxs e 0 t) by (rewrite positions_getl; reflexivity).
    destruct (incr_loop e (kept (ign_names ig) t) probs Hl) as [v' [H1 [H2 H3]]].
    unfold getl in Hours. destruct (dget str_eq_dec (positions_from 0 t []) e) as [ours|].
    + subst ours. rewrite Hig, two_pointers_kept by (assumption || lia). cbn [Nat.sub]. rewrite H1. cbn [bind].
      exists v'. auto.
    + (* no occurrence at all *)
      pose proof (two_pointers_kept (ign_names ig) e t He 0 0 probs (le_n 0)) as H4. cbn [Nat.sub] in H4.
      rewrite H1, <- Hours in H4. cbn in H4. injection H4 as <-. exists probs. auto.
Qed.

Lemma fast_loop log0 e ig log probs ne :
  ig_valid log0 ig -> in_ig (ign_names ig) e = false ->
  (forall t, In t log -> length (kept (ign_names ig) t) <= length probs) ->
  exists probs', loopM (fast_trace e ig) (create_events_positions log) (probs, ne) =
      Ok (probs', ne + non_empty_traces log (ign_names ig)) /\
    length probs' = length probs /\
    forall j, nth j probs' 0 = nth j probs 0 + traces_with_at log (ign_names ig) e j.
Proof.
  intros Hv He. revert probs ne. induction log as [|t log IH]; intros probs ne Hl.
  - exists probs. cbn. split; [do 2 f_equal; unfold non_empty_traces, how_many; cbn; lia|split; [reflexivity|]].
    intros j. unfold traces_with_at, how_many. cbn. lia.
  - unfold create_events_positions. cbn [map]. rewrite loopM_cons.
    destruct (fast_trace_eq log0 e ig t probs ne Hv He) as [p1 [H1 [H2 H3]]]; [apply Hl; left; reflexivity|].
    rewrite H1. cbn [bind].
    destruct (IH p1 (nonempty (ign_names ig) t + ne)) as [p2 [G1 [G2 G3]]].
    { intros t' Ht'. rewrite H2. apply Hl. right; exact Ht'. }
    exists p2. split; [|split; [congruence|]].
    + unfold create_events_positions in G1.
      rewrite G1. do 2 f_equal. unfold non_empty_traces, how_many, nonempty. cbn [filter].
      destruct (kept (ign_names ig) t); cbn [length]; lia.
    + intros j. rewrite G3, H3. unfold traces_with_at, how_many, hit. cbn [filter].
      destruct (is_at e j (kept (ign_names ig) t)); cbn [length]; lia.
Qed.

Lemma add_vec_spec a b : length a = length b ->
  length (add_vec a b) = length a /\ forall j, nth j (add_vec a b) 0 = nth j a 0 + nth j b 0.
Proof.
  intros H. unfold add_vec. split; [rewrite map_length, combine_length; lia|].
  revert b H; induction a as [|x a IH]; intros [|y b] H; try discriminate; intros j.
  - destruct j; reflexivity.
  - destruct j as [|j]; cbn; [reflexivity|]. apply IH. cbn in H; lia.
Qed.

Lemma slow_loop e ig n log vs ne acc :
  in_ig (ign_names ig) e = false ->
  (forall t, In t log -> length (kept (ign_names ig) t) <= n) ->
  length (fold_left add_vec vs acc) = n ->
  exists vs', loopM (slow_trace e ig (Z.of_nat n)) log (vs, ne) = Ok (vs', ne + non_empty_traces log (ign_names ig)) /\
    length (fold_left add_vec vs' acc) = n /\
    forall j, nth j (fold_left add_vec vs' acc) 0 =
              nth j (fold_left add_vec vs acc) 0 + traces_with_at log (ign_names ig) e j.
Proof.
  intros He. revert vs ne. induction log as [|t log IH]; intros vs ne Hl Hacc.
  - exists vs. cbn. split; [do 2 f_equal; unfold non_empty_traces, how_many; cbn; lia|split; [exact Hacc|]].
    intros j. unfold traces_with_at, how_many. cbn. lia.
  - rewrite loopM_cons. unfold slow_trace at 1. rewrite slow_events_eq by exact He.
    unfold zeros. rewrite Nat2Z.id.
    destruct (set_loop e (kept (ign_names ig) t) n) as [v [H1 [H2 H3]]]; [apply Hl; left; reflexivity|].
    rewrite H1. cbn [bind fst snd andb].
    assert (Hsum : fold_left add_vec (vs ++ [v]) acc = add_vec (fold_left add_vec vs acc) v)
      by (rewrite fold_left_app; reflexivity).
    destruct (add_vec_spec (fold_left add_vec vs acc) v) as [A1 A2]; [congruence|].
    destruct (IH (vs ++ [v]) (if match kept (ign_names ig) t with [] => true | _ => false end then ne else S ne)) as [vs' [G1 [G2 G3]]].
    { intros t' Ht'. apply Hl. right; exact Ht'. }
    { rewrite Hsum, A1. exact Hacc. }
    exists vs'. split; [|split; [exact G2|]].
    + rewrite G1. do 2 f_equal. unfold non_empty_traces, how_many. cbn [filter].
      destruct (kept (ign_names ig) t); cbn [length]; lia.
    + intros j. rewrite G3, Hsum, A2, H3. unfold traces_with_at, how_many, hit. cbn [filter].
      destruct (is_at e j (kept (ign_names ig) t)); cbn [length]; lia.
Qed.

Lemma vector_eq v log ign e : length v = longest log ign ->
  (forall j, nth j v 0 = traces_with_at log ign e j) -> v = position_counts log ign e.
Proof.
  intros H1 H2. apply (nth_ext _ _ 0 0).
  - unfold position_counts. rewrite map_length, seq_length. exact H1.
  - intros j Hj. rewrite H2. unfold position_counts.
    rewrite (nth_indep _ 0 (traces_with_at log ign e 0)) by (rewrite map_length, seq_length; lia).
    rewrite map_nth. rewrite seq_nth by lia. reflexivity.
Qed.

Lemma is_ignored_notin ig e : match ign_names ig with None => True | Some l => ~ In e l end -> in_ig (ign_names ig) e = false.
Proof. unfold in_ig, is_ignored. destruct (ign_names ig); [apply str_mem_false|reflexivity]. Qed.

Lemma position_fast_slow_proof {F} (finish : list nat -> nat -> F) log e ig cached :
  log <> [] -> ig_valid log ig ->
  match ign_names ig with None => True | Some l => ~ In e l end ->
  (cached = None \/ cached = Some (create_events_positions log)) ->
  position_entropy_fast finish log e ig cached =
    Ok (finish (position_counts log (ign_names ig) e) (non_empty_traces log (ign_names ig))) /\
  position_entropy finish log e ig =
    Ok (finish (position_counts log (ign_names ig) e) (non_empty_traces log (ign_names ig))).
Proof.
  intros Hne Hv He Hc. apply is_ignored_notin in He.
  assert (Hl : forall t, In t log -> length (kept (ign_names ig) t) <= longest log (ign_names ig))
    by (intros t Ht; apply longest_ge; exact Ht).
  split.
  - unfold position_entropy_fast. rewrite max_vector_length_eq by assumption. cbn [bind].
    assert (E : match cached with Some c => c | None => create_events_positions log end = create_events_positions log)
      by (destruct Hc as [->| ->]; reflexivity).
    rewrite E. unfold zeros. rewrite Nat2Z.id.
    destruct (fast_loop log e ig log (repeat 0 (longest log (ign_names ig))) 0 Hv He) as [p [H1 [H2 H3]]].
    { intros t Ht. rewrite repeat_length. auto. }
    rewrite H1. cbn [bind fst snd Nat.add]. do 2 f_equal. apply vector_eq.
    + rewrite H2. apply repeat_length.
    + intros j. rewrite H3, nth_repeat. reflexivity.
  - unfold position_entropy. rewrite max_vector_length_eq by assumption. cbn [bind].
    destruct (slow_loop e ig (longest log (ign_names ig)) log [] 0 (zeros (Z.of_nat (longest log (ign_names ig)))) He Hl)
      as [vs [H1 [H2 H3]]].
    { cbn. unfold zeros. rewrite repeat_length. apply Nat2Z.id. }
    rewrite H1. cbn [bind fst snd Nat.add]. do 2 f_equal. apply vector_eq.
    + exact H2.
    + intros j. rewrite H3. cbn [fold_left]. unfold zeros. rewrite nth_repeat. reflexivity.
Qed.

(* ---- whole dictionaries ---- *)
Lemma loopM_dset_gen {V} (g : pystr -> V) (f : dict pystr V -> pystr * nat -> result (dict pystr V)) :
  forall items acc,
    (forall acc n c, In (n, c) items -> f acc (n, c) = Ok (dset str_eq_dec acc n (g n))) ->
    loopM f items acc = Ok (fold_left (fun acc n => dset str_eq_dec acc n (g n)) (map fst items) acc).
Proof.
  induction items as [|[n c] items IH]; intros acc Hf; [reflexivity|].
  rewrite loopM_cons, (Hf acc n c) by (left; reflexivity). cbn [bind map fold_left].
  apply IH. intros acc' n' c' H'. apply Hf. right; exact H'.
Qed.

Lemma fold_dset_fresh {V} (g : pystr -> V) l : forall acc,
  NoDup l -> (forall n, In n l -> ~ In n (dkeys acc)) ->
  fold_left (fun acc n => dset str_eq_dec acc n (g n)) l acc = acc ++ map (fun n => (n, g n)) l.
Proof.
  induction l as [|n l IH]; intros acc Hnd Hd; cbn [fold_left map]; [rewrite app_nil_r; reflexivity|].
  inversion Hnd as [|? ? Hn Hnd']; subst.
  assert (E : dset str_eq_dec acc n (g n) = acc ++ [(n, g n)]).
  { assert (Hk : ~ In n (dkeys acc)) by (apply Hd; left; reflexivity). clear - Hk.
    induction acc as [|[k v] acc IH]; [reflexivity|]. cbn [dset]. destruct (str_eq_dec n k) as [->|Hne].
    - exfalso; apply Hk; left; reflexivity.
    - cbn. f_equal. apply IH. intros H; apply Hk; right; exact H. }
  rewrite E, IH; [rewrite <- app_assoc; reflexivity|exact Hnd'|].
  intros m Hm. unfold dkeys. rewrite map_app, in_app_iff. cbn. intros [H|[H|[]]].
  - revert H. apply Hd. right; exact Hm.
  - subst; contradiction.
Qed.

Lemma occurrences_not_ignored log ign n : In n (occurrences log ign) ->
  log <> [] /\ match ign with None => True | Some l => ~ In n l end.
Proof.
  unfold occurrences. intros H. apply in_flat_map in H. destruct H as [t [Ht H]]. split.
  - intros ->. destruct Ht.
  - destruct ign as [l|]; [|exact I]. unfold kept in H. apply filter_In in H. destruct H as [_ H].
    destruct (in_dec str_eq_dec n l); [discriminate|assumption].
Qed.

Definition pos_dict {F} (finish : list nat -> nat -> F) log ign : dict pystr F :=
  map (fun n => (n, finish (position_counts log ign n) (non_empty_traces log ign)))
      (dkeys (li_events_count (create_log_information log ign true))).

Lemma position_dicts_proof {F} (finish : list nat -> nat -> F) log ig cached :
  ig_valid log ig -> (cached = None \/ cached = Some (create_events_positions log)) ->
  position_entropies_fast finish log ig cached = Ok (pos_dict finish log (ign_names ig)) /\
  position_entropies finish log ig = Ok (pos_dict finish log (ign_names ig)).
Proof.
  intros Hv Hc.
  set (g := fun n => finish (position_counts log (ign_names ig) n) (non_empty_traces log (ign_names ig))).
  assert (Hk : forall n c, In (n, c) (li_events_count (create_log_information log (ign_names ig) true)) ->
               log <> [] /\ match ign_names ig with None => True | Some l => ~ In n l end).
  { intros n c H. apply (occurrences_not_ignored log). apply (info_keys_proof log (ign_names ig) true).
    apply in_map_iff. exists (n, c). auto. }
  split.
  - unfold position_entropies_fast. fold (ign_names ig). rewrite (loopM_dset_gen g).
    + rewrite fold_dset_fresh; [reflexivity|apply (info_keys_proof log (ign_names ig) true)|intros n _ []].
    + intros acc n c H. destruct (Hk n c H) as [Hne Hn]. cbn [fst].
      destruct (position_fast_slow_proof finish log n ig (Some (match cached with Some c => c | None => create_events_positions log end)) Hne Hv Hn) as [E _].
      { right. destruct Hc as [->| ->]; reflexivity. }
      rewrite E. reflexivity.
  - unfold position_entropies. fold (ign_names ig). rewrite (loopM_dset_gen g).
    + rewrite fold_dset_fresh; [reflexivity|apply (info_keys_proof log (ign_names ig) true)|intros n _ []].
    + intros acc n c H. destruct (Hk n c H) as [Hne Hn]. cbn [fst].
      destruct (position_fast_slow_proof finish log n ig cached Hne Hv Hn Hc) as [_ E]. rewrite E. reflexivity.
Qed.

(* ---- ignoring names = removing them ---- *)
Lemma flat_map_without {B} (f : list pystr -> list B) log S : f [] = [] ->
  flat_map (fun t => f (kept None t)) (without log S) = flat_map (fun t => f (kept (Some S) t)) log.
Proof.
  intros H0. unfold without. induction log as [|t log IH]; [reflexivity|]. cbn [map filter flat_map].
  destruct (kept (Some S) t) as [|n t'] eqn:E.
  - rewrite IH, H0. reflexivity.
  - cbn [flat_map]. rewrite kept_None, IH. reflexivity.
Qed.

Lemma info_without log S fake :
  create_log_information (without log S) None fake = create_log_information log (Some S) fake.
Proof.
  rewrite !info_eq.
  assert (E1 : steps (without log S) None fake = steps log (Some S) fake)
    by apply (flat_map_without (fun t => neighbours (walk fake t)) log S eq_refl).
  assert (E2 : occurrences (without log S) None = occurrences log (Some S))
    by apply (flat_map_without (fun t => t) log S eq_refl).
  rewrite E1, E2. reflexivity.
Qed.

Lemma traces_with_without log S n j : traces_with_at (without log S) None n j = traces_with_at log (Some S) n j.
Proof.
  unfold traces_with_at, how_many, without. induction log as [|t log IH]; [reflexivity|]. cbn [map filter].
  destruct (kept (Some S) t) as [|m t'] eqn:E.
  - rewrite IH. unfold is_at. destruct j; reflexivity.
  - cbn [filter]. rewrite kept_None. destruct (is_at n j (m :: t')); cbn [length]; rewrite IH; reflexivity.
Qed.

Lemma non_empty_without log S : non_empty_traces (without log S) None = non_empty_traces log (Some S).
Proof.
  unfold non_empty_traces, how_many, without. induction log as [|t log IH]; [reflexivity|]. cbn [map filter].
  destruct (kept (Some S) t) as [|m t'] eqn:E; [exact IH|]. cbn [filter]. rewrite kept_None. cbn [length]. rewrite IH. reflexivity.
Qed.

Lemma longest_without log S : longest (without log S) None = longest log (Some S).
Proof.
  unfold longest, without. induction log as [|t log IH]; [reflexivity|]. cbn [map filter].
  change (list_max (length (kept (Some S) t) :: map (fun t => length (kept (Some S) t)) log))
    with (Nat.max (length (kept (Some S) t)) (list_max (map (fun t => length (kept (Some S) t)) log))).
  destruct (kept (Some S) t) as [|m t'] eqn:E; [rewrite IH; reflexivity|]. cbn [map].
  rewrite kept_None. rewrite <- IH. reflexivity.
Qed.

Lemma pos_dict_without {F} (finish : list nat -> nat -> F) log S :
  pos_dict finish (without log S) None = pos_dict finish log (Some S).
Proof.
  unfold pos_dict. rewrite info_without. apply map_ext. intros n. rewrite non_empty_without. do 2 f_equal.
  unfold position_counts. rewrite longest_without. apply map_ext. intros j. apply traces_with_without.
Qed.

Lemma position_ignore_is_removal_proof {F} (finish : list nat -> nat -> F) log S :
  NoDup S ->
  position_entropies_fast finish log (Some (mkIgn S (calculate_events_in_each_trace log))) None =
  position_entropies_fast finish (without log S) None None.
Proof.
  intros Hnd. destruct (position_dicts_proof finish log (Some (mkIgn S (calculate_events_in_each_trace log))) None) as [E1 _]; [cbn; auto|auto|].
  destruct (position_dicts_proof finish (without log S) None None) as [E2 _]; [exact I|auto|].
  rewrite E1, E2. cbn [ign_names option_map ig_events]. rewrite pos_dict_without. reflexivity.
Qed.

Lemma position_dicts_full {F} (finish : list nat -> nat -> F) log ig cached :
  match ig with
  | None => True
  | Some i => NoDup (ig_events i) /\ ig_counts i = calculate_events_in_each_trace log
  end ->
  (cached = None \/ cached = Some (create_events_positions log)) ->
  exists d, position_entropies_fast finish log ig cached = Ok d /\ position_entropies finish log ig = Ok d /\
    dkeys d = dkeys (li_events_count (create_log_information log (option_map ig_events ig) true)) /\
    forall n x, In (n, x) d ->
      x = finish (position_counts log (option_map ig_events ig) n) (non_empty_traces log (option_map ig_events ig)).
Proof.
  intros Hv Hc. destruct (position_dicts_proof finish log ig cached Hv Hc) as [E1 E2].
  eexists. split; [exact E1|split; [exact E2|split]].
  - unfold pos_dict, dkeys. rewrite map_map. apply map_id.
  - intros n x H. unfold pos_dict in H. apply in_map_iff in H. destruct H as [m [E _]]. injection E as <- <-. reflexivity.
Qed.

Lemma position_fast_slow_full {F} (finish : list nat -> nat -> F) log e ig cached :
  log <> [] ->
  match ig with
  | None => True
  | Some i => NoDup (ig_events i) /\ ig_counts i = calculate_events_in_each_trace log /\ ~ In e (ig_events i)
  end ->
  (cached = None \/ cached = Some (create_events_positions log)) ->
  let ign := option_map ig_events ig in
  position_entropy_fast finish log e ig cached =
    Ok (finish (position_counts log ign e) (non_empty_traces log ign)) /\
  position_entropy finish log e ig =
    Ok (finish (position_counts log ign e) (non_empty_traces log ign)).
Proof.
  intros Hne Hv Hc. apply position_fast_slow_proof; try assumption; destruct ig; cbn; tauto.
Qed.
