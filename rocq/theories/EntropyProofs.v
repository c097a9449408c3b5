From Coq Require Import Reals Lra Permutation.
From Verif Require Import Py PyFacts InfoModel InfoSpec InfoProofs EntropyModel EntropySpec.
Open Scope R_scope.

(* ---- real analysis ---- *)
Lemma ln2_pos : 0 < ln 2.
Proof. rewrite <- ln_1. apply ln_increasing; lra. Qed.

Lemma ln_le_sub1 x : 0 < x -> ln x <= x - 1.
Proof.
  intros Hx. destruct (Rle_or_lt (ln x) (x - 1)) as [H|H]; [exact H|].
  exfalso. pose proof (exp_ineq1_le (ln x)) as E. rewrite exp_ln in E by exact Hx. lra.
Qed.

Lemma surprise_nonneg p : 0 <= p <= 1 -> 0 <= surprise p.
Proof.
  intros [H0 H1]. unfold surprise. destruct (Req_EM_T p 0) as [|Hn]; [lra|].
  assert (Hp : 0 < p) by lra.
  assert (Hl : ln p <= 0). { pose proof (ln_le_sub1 p Hp). lra. }
  pose proof ln2_pos as H2.
  assert (ln p / ln 2 <= 0). { unfold Rdiv. rewrite <- (Rmult_0_l (/ ln 2)). apply Rmult_le_compat_r; [|exact Hl].
    left. apply Rinv_0_lt_compat; exact H2. }
  assert (0 <= p * - (ln p / ln 2)) by (apply Rmult_le_pos; lra). lra.
Qed.

Lemma surprise_pos p : 0 < p < 1 -> 0 < surprise p.
Proof.
  intros [H0 H1]. unfold surprise. destruct (Req_EM_T p 0) as [|Hn]; [lra|].
  assert (Hl : ln p < 0). { rewrite <- ln_1. apply ln_increasing; lra. }
  pose proof ln2_pos as H2.
  assert (ln p / ln 2 < 0). { unfold Rdiv. rewrite <- (Rmult_0_l (/ ln 2)). apply Rmult_lt_compat_r; [|exact Hl].
    apply Rinv_0_lt_compat; exact H2. }
  assert (0 < p * - (ln p / ln 2)) by (apply Rmult_lt_0_compat; lra). lra.
Qed.

Lemma surprise_zero p : 0 <= p <= 1 -> (surprise p = 0 <-> p = 0 \/ p = 1).
Proof.
  intros Hp. split.
  - intros H. destruct (Req_dec p 0) as [|H0]; [auto|]. destruct (Req_dec p 1) as [|H1]; [auto|].
    assert (0 < surprise p) by (apply surprise_pos; lra). lra.
  - intros [->| ->]; unfold surprise.
    + destruct (Req_EM_T 0 0); lra.
    + destruct (Req_EM_T 1 0); [lra|]. rewrite ln_1. unfold Rdiv. lra.
Qed.

Lemma calculate_entropy_shannon v : calculate_entropy v = shannon v.
Proof.
  unfold calculate_entropy.
  assert (H : forall v e, fold_left (fun e item => if Req_EM_T item 0 then e else e - item * log2 item) v e = e + shannon v).
  { clear v. induction v as [|x v IH]; intros e; cbn [fold_left].
    - unfold shannon; cbn. lra.
    - rewrite IH. change (shannon (x :: v)) with (surprise x + shannon v). unfold surprise, log2.
      destruct (Req_EM_T x 0); lra. }
  rewrite H. lra.
Qed.

Lemma total_app a b : total (a ++ b) = total a + total b.
Proof. induction a as [|x a IH]; unfold total in *; cbn; [|rewrite IH]; lra. Qed.

Lemma shannon_nonneg v : Forall (fun p => 0 <= p <= 1) v -> 0 <= shannon v.
Proof.
  induction 1 as [|p v Hp Hv IH]; unfold shannon in *; cbn; [lra|].
  pose proof (surprise_nonneg p Hp). unfold total in *. lra.
Qed.

Lemma shannon_zero v : Forall (fun p => 0 <= p <= 1) v -> (shannon v = 0 <-> Forall (fun p => p = 0 \/ p = 1) v).
Proof.
  induction 1 as [|p v Hp Hv IH].
  - unfold shannon; cbn. split; auto.
  - pose proof (surprise_nonneg p Hp) as H1. pose proof (shannon_nonneg v Hv) as H2.
    change (shannon (p :: v)) with (surprise p + shannon v). split.
    + intros H. constructor; [apply surprise_zero; [exact Hp|lra]|apply IH; lra].
    + intros H. inversion H as [|? ? Ha Hb]; subst. apply (surprise_zero p Hp) in Ha. apply IH in Hb. lra.
Qed.

Lemma shannon_pos v p : Forall (fun p => 0 <= p <= 1) v -> In p v -> 0 < p < 1 -> 0 < shannon v.
Proof.
  intros Hv Hin Hp. destruct (Rle_lt_or_eq_dec 0 (shannon v) (shannon_nonneg v Hv)) as [H|H]; [exact H|].
  symmetry in H. apply shannon_zero in H; [|exact Hv]. rewrite Forall_forall in H. destruct (H p Hin); lra.
Qed.

(** Gibbs: entropy of a distribution with n entries is at most log2 n. *)
Lemma surprise_gibbs n p : 0 < n -> 0 <= p <= 1 ->
  surprise p <= (/ n - p) / ln 2 + p * (ln n / ln 2).
Proof.
  intros Hn Hp. pose proof ln2_pos as H2.
  assert (Hi : 0 < / ln 2) by (apply Rinv_0_lt_compat; exact H2).
  unfold surprise. destruct (Req_EM_T p 0) as [->|H0].
  - unfold Rdiv. rewrite Rmult_0_l, Rplus_0_r, Rminus_0_r.
    assert (0 < / n) by (apply Rinv_0_lt_compat; exact Hn).
    left. apply Rmult_lt_0_compat; assumption.
  - assert (Hp0 : 0 < p) by lra.
    assert (Hq : 0 < / (n * p)) by (apply Rinv_0_lt_compat, Rmult_lt_0_compat; assumption).
    pose proof (ln_le_sub1 _ Hq) as Hl. rewrite ln_Rinv in Hl by (apply Rmult_lt_0_compat; assumption).
    rewrite ln_mult in Hl by assumption.
    assert (Hm : p * (- (ln n + ln p)) <= p * (/ (n * p) - 1)) by (apply Rmult_le_compat_l; lra).
    assert (E : p * (/ (n * p) - 1) = / n - p) by (field; lra). rewrite E in Hm.
    assert (Hd : p * (- (ln n + ln p)) * / ln 2 <= (/ n - p) * / ln 2) by (apply Rmult_le_compat_r; lra).
    unfold Rdiv. lra.
Qed.

Lemma shannon_gibbs_sum n v : 0 < n -> Forall (fun p => 0 <= p <= 1) v ->
  shannon v <= (INR (length v) * / n - total v) / ln 2 + total v * (ln n / ln 2).
Proof.
  intros Hn. induction 1 as [|p v Hp Hv IH].
  - unfold shannon; cbn. unfold Rdiv. lra.
  - change (shannon (p :: v)) with (surprise p + shannon v).
    change (total (p :: v)) with (p + total v). cbn [length]. rewrite S_INR.
    pose proof (surprise_gibbs n p Hn Hp) as H. unfold Rdiv in *. lra.
Qed.

Lemma shannon_le v : v <> [] -> distribution v -> shannon v <= ln (INR (length v)) / ln 2.
Proof.
  intros Hne [Hv Ht]. assert (Hl : 0 < INR (length v)). { apply lt_0_INR. destruct v; [congruence|cbn; lia]. }
  pose proof (shannon_gibbs_sum _ v Hl Hv) as H. rewrite Ht in H.
  rewrite Rinv_r in H by lra. unfold Rdiv in *. lra.
Qed.

(* ---- counting ---- *)
Lemma INR_list_sum {A} (f : A -> nat) l : INR (list_sum (map f l)) = total (map (fun x => INR (f x)) l).
Proof. induction l as [|x l IH]; cbn; [reflexivity|]. rewrite plus_INR. unfold total in IH. rewrite <- IH. reflexivity. Qed.

Lemma total_map_mult {A} (f : A -> R) c l : total (map (fun x => f x * c) l) = total (map f l) * c.
Proof. induction l as [|x l IH]; cbn; [lra|]. unfold total in *. rewrite IH. lra. Qed.

Lemma list_sum_count_occ_cons (ks : list pystr) x (L : list pystr) : NoDup ks -> In x ks ->
  list_sum (map (count_occ str_eq_dec (x :: L)) ks) = S (list_sum (map (count_occ str_eq_dec L) ks)).
Proof.
  intros Hnd Hin. induction ks as [|k ks IH]; [destruct Hin|].
  inversion Hnd as [|? ? Hk Hnd']; subst. cbn [map]. unfold list_sum in *. cbn [fold_right].
  cbn [count_occ]. destruct (str_eq_dec x k) as [->|Hne].
  - cbn. f_equal. f_equal. f_equal. apply map_ext_in. intros y Hy. destruct (str_eq_dec k y); [congruence|reflexivity].
  - destruct Hin as [->|Hin]; [congruence|]. cbn [count_occ] in IH. rewrite IH by assumption. lia.
Qed.

Lemma list_sum_count_occ (ks L : list pystr) : NoDup ks -> incl L ks ->
  list_sum (map (count_occ str_eq_dec L) ks) = length L.
Proof.
  intros Hnd. induction L as [|x L IH]; intros Hi.
  - clear. induction ks as [|k ks IH]; cbn; [reflexivity|exact IH].
  - rewrite list_sum_count_occ_cons; [|exact Hnd|apply Hi; left; reflexivity].
    cbn. f_equal. apply IH. intros y Hy. apply Hi. right; exact Hy.
Qed.

Definition succs (e : pystr) (S : list (pystr * pystr)) := map snd (filter (fun q => eqs e (fst q)) S).
Definition preds (e : pystr) (S : list (pystr * pystr)) := map fst (filter (fun q => eqs e (snd q)) S).

Lemma count_succs e S x : count_occ str_eq_dec (succs e S) x = count_occ pair_eq_dec S (e, x).
Proof.
  unfold succs. induction S as [|[a b] S IH]; [reflexivity|]. cbn [filter fst]. unfold eqs at 1.
  destruct (str_eq_dec e a) as [->|Hne].
  - cbn [map snd count_occ]. destruct (str_eq_dec b x) as [->|Hb].
    + destruct (pair_eq_dec (a, x) (a, x)); [|congruence]. f_equal; exact IH.
    + destruct (pair_eq_dec (a, b) (a, x)); [congruence|]. exact IH.
  - cbn [count_occ]. destruct (pair_eq_dec (a, b) (e, x)); [congruence|]. exact IH.
Qed.

Lemma count_preds e S x : count_occ str_eq_dec (preds e S) x = count_occ pair_eq_dec S (x, e).
Proof.
  unfold preds. induction S as [|[a b] S IH]; [reflexivity|]. cbn [filter snd]. unfold eqs at 1.
  destruct (str_eq_dec e b) as [->|Hne].
  - cbn [map fst count_occ]. destruct (str_eq_dec a x) as [->|Hb].
    + destruct (pair_eq_dec (x, b) (x, b)); [|congruence]. f_equal; exact IH.
    + destruct (pair_eq_dec (a, b) (x, b)); [congruence|]. exact IH.
  - cbn [count_occ]. destruct (pair_eq_dec (a, b) (x, e)); [congruence|]. exact IH.
Qed.

Lemma In_succs e S b : In b (succs e S) <-> In (e, b) S.
Proof.
  unfold succs. rewrite in_map_iff. split.
  - intros [[a b'] [H1 H2]]. apply filter_In in H2. cbn in H1, H2. destruct H2 as [H2 H3]. unfold eqs in H3.
    destruct (str_eq_dec e a); [|discriminate]. congruence.
  - intros H. exists (e, b). split; [reflexivity|]. apply filter_In. split; [exact H|]. apply eqs_refl.
Qed.

Lemma In_preds e S b : In b (preds e S) <-> In (b, e) S.
Proof.
  unfold preds. rewrite in_map_iff. split.
  - intros [[a b'] [H1 H2]]. apply filter_In in H2. cbn in H1, H2. destruct H2 as [H2 H3]. unfold eqs in H3.
    destruct (str_eq_dec e b'); [|discriminate]. congruence.
  - intros H. exists (b, e). split; [reflexivity|]. apply filter_In. split; [exact H|]. apply eqs_refl.
Qed.

Lemma neighbours_In {A} (l : list A) a b : In (a, b) (neighbours l) -> In b (tl l) /\ In a (removelast l).
Proof.
  induction l as [|x l IH]; [intros []|]. destruct l as [|y l]; [intros []|].
  rewrite neighbours_cons. intros [H|H].
  - injection H as -> ->. split; left; reflexivity.
  - destruct (IH H) as [H1 H2]. split; right; assumption.
Qed.

Lemma removelast_snoc {A} (l : list A) x : removelast (l ++ [x]) = l.
Proof. apply removelast_last. Qed.

Lemma steps_ends log ign a b : In (a, b) (steps log ign true) ->
  (In b (occurrences log ign) \/ b = fake_end_name) /\ (In a (occurrences log ign) \/ a = fake_start_name).
Proof.
  unfold steps, occurrences. intros H. apply in_flat_map in H. destruct H as [t [Ht H]].
  assert (Hin : forall z, In z (kept ign t) -> In z (flat_map (kept ign) log)).
  { intros z Hz. apply in_flat_map. eauto. }
  destruct (kept ign t) as [|n t'] eqn:E; [destruct H|]. unfold walk in H.
  change ([str "FAKE_START"] ++ (n :: t') ++ [str "FAKE_END"])
    with (fake_start_name :: (n :: t') ++ [fake_end_name]) in H.
  apply neighbours_In in H. destruct H as [H1 H2]. split.
  - cbn [tl] in H1. apply in_app_iff in H1. destruct H1 as [H1|[H1|[]]]; auto.
  - change (fake_start_name :: (n :: t') ++ [fake_end_name])
      with ((fake_start_name :: n :: t') ++ [fake_end_name]) in H2.
    rewrite removelast_snoc in H2. destruct H2 as [H2|H2]; auto.
Qed.

(* ---- ratio vectors ---- *)
Definition names_of (log : names_log) (ign : option (list pystr)) : list pystr :=
  dkeys (li_events_count (create_log_information log ign true)).

Lemma names_of_In log ign n : In n (names_of log ign) <-> In n (occurrences log ign).
Proof. apply (info_keys_proof log ign true). Qed.

Lemma names_of_NoDup log ign : NoDup (names_of log ign).
Proof. apply (info_keys_proof log ign true). Qed.

Lemma pair_count_eq log ign a b :
  pair_count (create_log_information log ign true) a b = count_occ pair_eq_dec (steps log ign true) (a, b).
Proof.
  unfold pair_count. rewrite pairs_exact_proof. cbn zeta.
  destruct (Nat.eqb_spec (count_occ pair_eq_dec (steps log ign true) (a, b)) 0); lia.
Qed.

Lemma events_getitem log ign e : In e (occurrences log ign) ->
  dgetitem str_eq_dec (li_events_count (create_log_information log ign true)) e =
  Ok (count_occ str_eq_dec (occurrences log ign) e).
Proof.
  intros H. unfold dgetitem. rewrite events_exact_proof. cbn zeta.
  apply (count_occ_In str_eq_dec) in H.
  destruct (Nat.eqb_spec (count_occ str_eq_dec (occurrences log ign) e) 0); [lia|reflexivity].
Qed.

Lemma NoDup_snoc {A} (l : list A) x : NoDup l -> ~ In x l -> NoDup (l ++ [x]).
Proof.
  intros H Hx. apply NoDup_rev in H. rewrite <- (rev_involutive (l ++ [x])). apply NoDup_rev.
  rewrite rev_app_distr. cbn. constructor; [|exact H]. rewrite <- in_rev. exact Hx.
Qed.


Lemma fake_free_occ log ign : fake_free log ->
  ~ In fake_start_name (occurrences log ign) /\ ~ In fake_end_name (occurrences log ign).
Proof.
  intros H. unfold occurrences. split; intros Hin; apply in_flat_map in Hin; destruct Hin as [t [Ht Hin]];
    destruct (H t Ht) as [H1 H2]; revert Hin; apply kept_notin; assumption.
Qed.

Definition out_counts log ign e :=
  map (count_occ str_eq_dec (succs e (steps log ign true))) (names_of log ign ++ [fake_end_name]).
Definition in_counts log ign e :=
  map (count_occ str_eq_dec (preds e (steps log ign true))) (names_of log ign ++ [fake_start_name]).

Lemma out_counts_sum log ign e : fake_free log -> In e (occurrences log ign) ->
  list_sum (out_counts log ign e) = count_occ str_eq_dec (occurrences log ign) e.
Proof.
  intros Hf He. destruct (fake_free_occ log ign Hf) as [F1 F2]. unfold out_counts.
  rewrite list_sum_count_occ.
  - unfold succs. rewrite map_length. change (length _) with (how_many (fun q => eqs e (fst q)) (steps log ign true)).
    rewrite (sum_out (eqs e)), count_occ_how_many; [reflexivity|].
    unfold eqs. destruct (str_eq_dec e fake_start_name); [subst; contradiction|reflexivity].
  - apply NoDup_snoc; [apply names_of_NoDup|]. rewrite names_of_In. exact F2.
  - intros b Hb. apply In_succs in Hb. apply steps_ends in Hb. rewrite in_app_iff, names_of_In. cbn.
    destruct Hb as [[Hb|Hb] _]; auto.
Qed.

Lemma in_counts_sum log ign e : fake_free log -> In e (occurrences log ign) ->
  list_sum (in_counts log ign e) = count_occ str_eq_dec (occurrences log ign) e.
Proof.
  intros Hf He. destruct (fake_free_occ log ign Hf) as [F1 F2]. unfold in_counts.
  rewrite list_sum_count_occ.
  - unfold preds. rewrite map_length. change (length _) with (how_many (fun q => eqs e (snd q)) (steps log ign true)).
    rewrite (sum_in (eqs e)), count_occ_how_many; [reflexivity|].
    unfold eqs. destruct (str_eq_dec e fake_end_name); [subst; contradiction|reflexivity].
  - apply NoDup_snoc; [apply names_of_NoDup|]. rewrite names_of_In. exact F1.
  - intros b Hb. apply In_preds in Hb. apply steps_ends in Hb. rewrite in_app_iff, names_of_In. cbn.
    destruct Hb as [_ [Hb|Hb]]; auto.
Qed.

Lemma list_sum_ge l x : In x l -> (x <= list_sum l)%nat.
Proof.
  induction l as [|y l IH]; [intros []|]. unfold list_sum in *. cbn. intros [->|H]; [lia|]. specialize (IH H). lia.
Qed.

(** Shape of a ratio vector obtained from counts cs with total c > 0. *)
Definition ratios (cs : list nat) (c : nat) : list R := map (fun k => INR k / INR c) cs.
Definition laplace_ratios (cs : list nat) (n c : nat) : list R :=
  map (fun k => (1 / INR c + INR k) / (1 / INR c * INR (n + 1) + INR c)) cs.

Lemma ratios_distribution cs c : (0 < c)%nat -> list_sum cs = c -> distribution (ratios cs c).
Proof.
  intros Hc Hs. assert (Hcr : 0 < INR c) by (apply lt_0_INR; exact Hc). split.
  - apply Forall_forall. intros p Hp. apply in_map_iff in Hp. destruct Hp as [k [<- Hk]].
    apply list_sum_ge in Hk. rewrite Hs in Hk. apply le_INR in Hk. pose proof (pos_INR k).
    unfold Rdiv. split.
    + apply Rmult_le_pos; [assumption|]. left; apply Rinv_0_lt_compat; assumption.
    + apply (Rmult_le_reg_r (INR c)); [assumption|]. rewrite Rmult_assoc, Rinv_l by lra. lra.
  - unfold ratios, Rdiv. rewrite (total_map_mult INR).
    replace (total (map INR cs)) with (INR c); [apply Rinv_r; lra|].
    rewrite <- Hs. rewrite <- (map_id cs) at 1. apply INR_list_sum.
Qed.

Lemma laplace_den_pos n c : (0 < c)%nat -> 0 < 1 / INR c * INR (n + 1) + INR c.
Proof.
  intros Hc. assert (Hcr : 0 < INR c) by (apply lt_0_INR; exact Hc).
  assert (0 < 1 / INR c). { unfold Rdiv. rewrite Rmult_1_l. apply Rinv_0_lt_compat; exact Hcr. }
  assert (0 < INR (n + 1)) by (apply lt_0_INR; lia).
  assert (0 < 1 / INR c * INR (n + 1)) by (apply Rmult_lt_0_compat; assumption). lra.
Qed.

Lemma laplace_total cs n c : (0 < c)%nat -> list_sum cs = c -> length cs = (n + 1)%nat ->
  total (laplace_ratios cs n c) = 1.
Proof.
  intros Hc Hs Hl. pose proof (laplace_den_pos n c Hc) as Hd. unfold laplace_ratios.
  set (y := 1 / INR c * INR (n + 1) + INR c) in *. unfold Rdiv at 1.
  rewrite (total_map_mult (fun k => 1 / INR c + INR k)).
  replace (total (map (fun k => 1 / INR c + INR k) cs)) with y; [apply Rinv_r; lra|].
  unfold y. rewrite <- Hl. clear Hl Hd y.
  assert (H : forall a, total (map (fun k => a + INR k) cs) = a * INR (length cs) + INR (list_sum cs)).
  { intros a. clear. induction cs as [|k cs IH]; [cbn; lra|]. cbn [map length]. rewrite S_INR.
    change (total ((a + INR k) :: map (fun k => a + INR k) cs)) with (a + INR k + total (map (fun k => a + INR k) cs)).
    rewrite IH. change (list_sum (k :: cs)) with (k + list_sum cs)%nat. rewrite plus_INR. lra. }
  rewrite H, Hs. reflexivity.
Qed.

Lemma laplace_range cs n c p : (0 < c)%nat -> (0 < n)%nat -> list_sum cs = c ->
  In p (laplace_ratios cs n c) -> 0 < p < 1.
Proof.
  intros Hc Hn Hs Hp. pose proof (laplace_den_pos n c Hc) as Hd. apply in_map_iff in Hp.
  destruct Hp as [k [<- Hk]]. apply list_sum_ge in Hk. rewrite Hs in Hk. apply le_INR in Hk.
  assert (Hcr : 0 < INR c) by (apply lt_0_INR; exact Hc).
  assert (Ha : 0 < 1 / INR c). { unfold Rdiv. rewrite Rmult_1_l. apply Rinv_0_lt_compat; exact Hcr. }
  pose proof (pos_INR k) as Hk0.
  set (a := 1 / INR c) in *. rewrite plus_INR in *. cbn [INR] in *.
  assert (Hn' : 0 < INR n) by (apply lt_0_INR; exact Hn).
  assert (0 < a * INR n) by (apply Rmult_lt_0_compat; assumption).
  unfold Rdiv. split.
  - apply Rmult_lt_0_compat; [lra|]. apply Rinv_0_lt_compat; exact Hd.
  - apply (Rmult_lt_reg_r (a * (INR n + 1) + INR c)); [exact Hd|]. rewrite Rmult_assoc, Rinv_l by lra. lra.
Qed.

Lemma vector_ok {A} (f : A -> result R) (g : A -> R) l : (forall x, f x = Ok (g x)) -> mapM f l = Ok (map g l).
Proof. intros H. apply mapM_ok. intros x _. apply H. Qed.

Lemma default_vectors log ign e : In e (occurrences log ign) ->
  let info := create_log_information log ign true in
  let c := count_occ str_eq_dec (occurrences log ign) e in
  mapM (fun x => default_dfr e x info) (names_of log ign ++ [fake_end_name]) = Ok (ratios (out_counts log ign e) c) /\
  mapM (fun x => default_dpr e x info) (names_of log ign ++ [fake_start_name]) = Ok (ratios (in_counts log ign e) c).
Proof.
  intros He. cbn zeta. pose proof He as Hc. apply (count_occ_In str_eq_dec) in Hc.
  unfold ratios, out_counts, in_counts. rewrite !map_map. split.
  - apply vector_ok. intros x. unfold default_dfr. rewrite events_getitem by exact He. cbn [bind]. unfold py_div.
    destruct (Nat.eqb_spec (count_occ str_eq_dec (occurrences log ign) e) 0); [lia|].
    rewrite pair_count_eq, count_succs. reflexivity.
  - apply vector_ok. intros x. unfold default_dpr. rewrite events_getitem by exact He. cbn [bind]. unfold py_div.
    destruct (Nat.eqb_spec (count_occ str_eq_dec (occurrences log ign) e) 0); [lia|].
    rewrite pair_count_eq, count_preds. reflexivity.
Qed.

Lemma laplace_vectors log ign e : In e (occurrences log ign) ->
  let info := create_log_information log ign true in
  let c := count_occ str_eq_dec (occurrences log ign) e in
  let n := length (names_of log ign) in
  mapM (fun x => laplace_dfr e x info) (names_of log ign ++ [fake_end_name]) = Ok (laplace_ratios (out_counts log ign e) n c) /\
  mapM (fun x => laplace_dpr e x info) (names_of log ign ++ [fake_start_name]) = Ok (laplace_ratios (in_counts log ign e) n c).
Proof.
  intros He. cbn zeta. pose proof He as Hc. apply (count_occ_In str_eq_dec) in Hc.
  assert (Hlen : length (li_events_count (create_log_information log ign true)) = length (names_of log ign))
    by (unfold names_of, dkeys; rewrite map_length; reflexivity).
  unfold laplace_ratios, out_counts, in_counts. rewrite !map_map. split.
  - apply vector_ok. intros x. unfold laplace_dfr. rewrite events_getitem by exact He. cbn [bind].
    unfold dfr_or_dpr, py_div.
    destruct (Nat.eqb_spec (count_occ str_eq_dec (occurrences log ign) e) 0); [lia|].
    cbn [bind]. rewrite pair_count_eq, count_succs, Hlen. reflexivity.
  - apply vector_ok. intros x. unfold laplace_dpr. rewrite events_getitem by exact He. cbn [bind].
    unfold dfr_or_dpr, py_div.
    destruct (Nat.eqb_spec (count_occ str_eq_dec (occurrences log ign) e) 0); [lia|].
    cbn [bind]. rewrite pair_count_eq, count_preds, Hlen. reflexivity.
Qed.

Lemma out_counts_length log ign e : length (out_counts log ign e) = (length (names_of log ign) + 1)%nat.
Proof. unfold out_counts. rewrite map_length, app_length. reflexivity. Qed.
Lemma in_counts_length log ign e : length (in_counts log ign e) = (length (names_of log ign) + 1)%nat.
Proof. unfold in_counts. rewrite map_length, app_length. reflexivity. Qed.

Lemma names_nonempty log ign e : In e (occurrences log ign) -> (0 < length (names_of log ign))%nat.
Proof. intros H. apply names_of_In in H. destruct (names_of log ign); [destruct H|cbn; lia]. Qed.

Lemma default_ratios_proof log ign e :
  fake_free log -> In e (occurrences log ign) ->
  let info := create_log_information log ign true in
  let names := dkeys (li_events_count info) in
  exists v w,
    mapM (fun x => default_dfr e x info) (names ++ [str "FAKE_END"]) = Ok v /\
    mapM (fun x => default_dpr e x info) (names ++ [str "FAKE_START"]) = Ok w /\
    distribution v /\ distribution w.
Proof.
  intros Hf He. cbn zeta. destruct (default_vectors log ign e He) as [H1 H2].
  pose proof He as Hc. apply (count_occ_In str_eq_dec) in Hc.
  eexists; eexists. split; [exact H1|split; [exact H2|]].
  split; apply ratios_distribution; try lia.
  - apply out_counts_sum; assumption.
  - apply in_counts_sum; assumption.
Qed.

Lemma laplace_distribution cs n c : (0 < c)%nat -> (0 < n)%nat -> list_sum cs = c -> length cs = (n + 1)%nat ->
  distribution (laplace_ratios cs n c) /\ Forall (fun p => 0 < p < 1) (laplace_ratios cs n c).
Proof.
  intros Hc Hn Hs Hl. assert (F : Forall (fun p => 0 < p < 1) (laplace_ratios cs n c)).
  { apply Forall_forall. intros p Hp. exact (laplace_range cs n c p Hc Hn Hs Hp). }
  split; [|exact F]. split; [|apply laplace_total; assumption].
  eapply Forall_impl; [|exact F]. cbn. intros p Hp. lra.
Qed.

Lemma laplace_ratios_proof log ign e :
  fake_free log -> In e (occurrences log ign) ->
  let info := create_log_information log ign true in
  let names := dkeys (li_events_count info) in
  exists v w,
    mapM (fun x => laplace_dfr e x info) (names ++ [str "FAKE_END"]) = Ok v /\
    mapM (fun x => laplace_dpr e x info) (names ++ [str "FAKE_START"]) = Ok w /\
    distribution v /\ distribution w /\
    Forall (fun p => 0 < p < 1) v /\ Forall (fun p => 0 < p < 1) w.
Proof.
  intros Hf He. cbn zeta. destruct (laplace_vectors log ign e He) as [H1 H2].
  pose proof He as Hc. apply (count_occ_In str_eq_dec) in Hc.
  pose proof (names_nonempty log ign e He) as Hn.
  assert (Hc' : (0 < count_occ str_eq_dec (occurrences log ign) e)%nat) by lia.
  destruct (laplace_distribution _ _ _ Hc' Hn (out_counts_sum log ign e Hf He) (out_counts_length log ign e)) as [A1 A2].
  destruct (laplace_distribution _ _ _ Hc' Hn (in_counts_sum log ign e Hf He) (in_counts_length log ign e)) as [B1 B2].
  eexists; eexists. split; [exact H1|split; [exact H2|]]. auto.
Qed.

(* ---- the entropy dictionaries ---- *)
Lemma loopM_dset {V} (g : pystr -> V) (f : dict pystr V -> pystr * nat -> result (dict pystr V)) :
  forall items acc,
    (forall acc n c, In (n, c) items -> f acc (n, c) = Ok (dset str_eq_dec acc n (g n))) ->
    NoDup (map fst items) -> (forall n, In n (map fst items) -> ~ In n (dkeys acc)) ->
    loopM f items acc = Ok (acc ++ map (fun n => (n, g n)) (map fst items)).
Proof.
  induction items as [|[n c] items IH]; intros acc Hf Hnd Hd; cbn [loopM map].
  - rewrite app_nil_r. reflexivity.
  - rewrite (Hf acc n c) by (left; reflexivity). cbn [bind].
    inversion Hnd as [|? ? Hn Hnd']; subst.
    assert (E : dset str_eq_dec acc n (g n) = acc ++ [(n, g n)]).
    { assert (Hk : ~ In n (dkeys acc)) by (apply Hd; left; reflexivity). clear - Hk.
      induction acc as [|[k v] acc IH]; [reflexivity|]. cbn [dset]. destruct (str_eq_dec n k) as [->|Hne].
      - exfalso; apply Hk; left; reflexivity.
      - cbn. f_equal. apply IH. intros H; apply Hk; right; exact H. }
    rewrite E. change (loopM f items (acc ++ [(n, g n)]) = Ok (acc ++ (n, g n) :: map (fun n0 => (n0, g n0)) (map fst items))).
    rewrite IH; [rewrite <- app_assoc; reflexivity| | |].
    + intros acc' n' c' H'. apply Hf. right; exact H'.
    + exact Hnd'.
    + intros m Hm. unfold dkeys. rewrite map_app, in_app_iff. cbn. intros [H|[H|[]]].
      * revert H. apply Hd. right; exact Hm.
      * subst; contradiction.
Qed.

Lemma dget_map {V} (g : pystr -> V) l n :
  dget str_eq_dec (map (fun n => (n, g n)) l) n = if in_dec str_eq_dec n l then Some (g n) else None.
Proof.
  induction l as [|x l IH]; [reflexivity|]. cbn [map dget].
  destruct (str_eq_dec n x) as [->|Hne].
  - destruct (in_dec str_eq_dec x (x :: l)) as [_|H]; [reflexivity|exfalso; apply H; left; reflexivity].
  - rewrite IH. destruct (in_dec str_eq_dec n l) as [H|H]; destruct (in_dec str_eq_dec n (x :: l)) as [H'|H']; try reflexivity.
    + exfalso; apply H'; right; exact H.
    + destruct H' as [H'|H']; [congruence|contradiction].
Qed.

Definition default_value log ign e : R :=
  shannon (ratios (out_counts log ign e) (count_occ str_eq_dec (occurrences log ign) e)) +
  shannon (ratios (in_counts log ign e) (count_occ str_eq_dec (occurrences log ign) e)).
Definition laplace_value log ign e : R :=
  let n := length (names_of log ign) in
  shannon (laplace_ratios (out_counts log ign e) n (count_occ str_eq_dec (occurrences log ign) e)) +
  shannon (laplace_ratios (in_counts log ign e) n (count_occ str_eq_dec (occurrences log ign) e)).

Lemma default_entropies_eq log ign :
  calculate_default_entropies log ign = Ok (map (fun n => (n, default_value log ign n)) (names_of log ign)).
Proof.
  unfold calculate_default_entropies, calculate_entropies. cbn zeta.
  change (dkeys (li_events_count (create_log_information log ign true))) with (names_of log ign).
  rewrite (loopM_dset (default_value log ign)).
  - reflexivity.
  - intros acc n c Hin. cbn [fst].
    assert (He : In n (occurrences log ign)). { apply names_of_In. apply in_map_iff. exists (n, c). auto. }
    destruct (default_vectors log ign n He) as [H1 H2]. rewrite H1. cbn [bind]. rewrite H2. cbn [bind].
    rewrite !calculate_entropy_shannon. reflexivity.
  - apply names_of_NoDup.
  - intros n _ [].
Qed.

Lemma laplace_entropies_eq log ign :
  calculate_laplace_entropies log ign = Ok (map (fun n => (n, laplace_value log ign n)) (names_of log ign)).
Proof.
  unfold calculate_laplace_entropies, calculate_entropies. cbn zeta.
  change (dkeys (li_events_count (create_log_information log ign true))) with (names_of log ign).
  rewrite (loopM_dset (laplace_value log ign)).
  - reflexivity.
  - intros acc n c Hin. cbn [fst].
    assert (He : In n (occurrences log ign)). { apply names_of_In. apply in_map_iff. exists (n, c). auto. }
    destruct (laplace_vectors log ign n He) as [H1 H2]. rewrite H1. cbn [bind]. rewrite H2. cbn [bind].
    rewrite !calculate_entropy_shannon. reflexivity.
  - apply names_of_NoDup.
  - intros n _ [].
Qed.

Lemma ratio_01 k c : (0 < c)%nat -> (INR k / INR c = 0 \/ INR k / INR c = 1) <-> (k = 0%nat \/ k = c).
Proof.
  intros Hc. assert (Hcr : INR c <> 0) by (apply not_0_INR; lia).
  split.
  - intros [H|H].
    + left. apply (Rmult_eq_compat_r (INR c)) in H. unfold Rdiv in H. rewrite Rmult_assoc, Rinv_l, Rmult_1_r, Rmult_0_l in H by exact Hcr.
      apply INR_eq. rewrite H. reflexivity.
    + right. apply (Rmult_eq_compat_r (INR c)) in H. unfold Rdiv in H. rewrite Rmult_assoc, Rinv_l, Rmult_1_r, Rmult_1_l in H by exact Hcr.
      apply INR_eq; exact H.
  - intros [->| ->]; [left; cbn; unfold Rdiv; ring|right; unfold Rdiv; apply Rinv_r; exact Hcr].
Qed.

(** all counts 0 or the total <-> the underlying list is constant *)
Lemma counts_01 (L ks : list pystr) : NoDup ks -> incl L ks -> L <> [] ->
  (Forall (fun k => k = 0%nat \/ k = length L) (map (count_occ str_eq_dec L) ks) <->
   exists b, forall b', In b' L -> b' = b).
Proof.
  intros Hnd Hi Hne. split.
  - intros H. destruct L as [|x L]; [congruence|]. exists x. intros b' Hb'.
    rewrite Forall_forall in H.
    assert (Hx : count_occ str_eq_dec (x :: L) x = length (x :: L)).
    { assert (Hk : In (count_occ str_eq_dec (x :: L) x) (map (count_occ str_eq_dec (x :: L)) ks))
        by (apply in_map, Hi; left; reflexivity).
      destruct (H _ Hk) as [H1|H1]; [|exact H1].
      assert (H2 : In x (x :: L)) by (left; reflexivity). apply (count_occ_In str_eq_dec) in H2. lia. }
    destruct (str_eq_dec b' x) as [|Hn]; [assumption|]. exfalso.
    assert (Hle : forall l, In b' l -> (count_occ str_eq_dec l x < length l)%nat).
    { induction l as [|y l IH]; [intros []|]. intros [E|Hl]; cbn [count_occ length].
      - subst y. destruct (str_eq_dec b' x); [congruence|]. pose proof (count_occ_bound str_eq_dec x l). lia.
      - specialize (IH Hl). destruct (str_eq_dec y x); lia. }
    specialize (Hle _ Hb'). lia.
  - intros [b Hb]. apply Forall_forall. intros k Hk. apply in_map_iff in Hk. destruct Hk as [x [<- Hx]].
    destruct (str_eq_dec x b) as [->|Hn].
    + right. clear - Hb. induction L as [|y L IH]; [reflexivity|]. cbn [count_occ length].
      destruct (str_eq_dec y b) as [|Hy]; [|exfalso; apply Hy, Hb; left; reflexivity].
      f_equal. apply IH. intros b' Hb'. apply Hb. right; exact Hb'.
    + left. apply count_occ_not_In. intros H. apply Hn, Hb, H.
Qed.

Lemma Forall_ratios_01 cs c : (0 < c)%nat ->
  (Forall (fun p => p = 0 \/ p = 1) (ratios cs c) <-> Forall (fun k => k = 0%nat \/ k = c) cs).
Proof.
  intros Hc. unfold ratios. rewrite Forall_map. split; apply Forall_impl; intros k; apply (ratio_01 k c Hc).
Qed.

Lemma default_value_spec log ign e :
  fake_free log -> In e (occurrences log ign) ->
  0 <= default_value log ign e <= 2 * (ln (INR (length (names_of log ign) + 1)) / ln 2) /\
  (default_value log ign e = 0 <->
    (exists b, forall b', In (e, b') (steps log ign true) -> b' = b) /\
    (exists a, forall a', In (a', e) (steps log ign true) -> a' = a)).
Proof.
  intros Hf He. destruct (fake_free_occ log ign Hf) as [F1 F2].
  pose proof He as Hc. apply (count_occ_In str_eq_dec) in Hc.
  assert (Hc' : (0 < count_occ str_eq_dec (occurrences log ign) e)%nat) by lia.
  pose proof (out_counts_sum log ign e Hf He) as So. pose proof (in_counts_sum log ign e Hf He) as Si.
  pose proof (ratios_distribution _ _ Hc' So) as Do. pose proof (ratios_distribution _ _ Hc' Si) as Di.
  assert (No : ratios (out_counts log ign e) (count_occ str_eq_dec (occurrences log ign) e) <> []).
  { intros E. apply (f_equal (@length R)) in E. unfold ratios in E. rewrite map_length, out_counts_length in E. cbn in E. lia. }
  assert (Ni : ratios (in_counts log ign e) (count_occ str_eq_dec (occurrences log ign) e) <> []).
  { intros E. apply (f_equal (@length R)) in E. unfold ratios in E. rewrite map_length, in_counts_length in E. cbn in E. lia. }
  pose proof (shannon_le _ No Do) as Uo. pose proof (shannon_le _ Ni Di) as Ui.
  unfold ratios in Uo at 2. unfold ratios in Ui at 2. rewrite map_length, out_counts_length in Uo. rewrite map_length, in_counts_length in Ui.
  destruct Do as [Do _]. destruct Di as [Di _].
  pose proof (shannon_nonneg _ Do) as Po. pose proof (shannon_nonneg _ Di) as Pi.
  unfold default_value. split; [lra|].
  assert (Zo : shannon (ratios (out_counts log ign e) (count_occ str_eq_dec (occurrences log ign) e)) = 0 <->
               exists b, forall b', In (e, b') (steps log ign true) -> b' = b).
  { rewrite (shannon_zero _ Do), Forall_ratios_01 by exact Hc'. unfold out_counts.
    assert (Hlen : length (succs e (steps log ign true)) = count_occ str_eq_dec (occurrences log ign) e).
    { rewrite <- So. unfold out_counts. symmetry. apply list_sum_count_occ.
      - apply NoDup_snoc; [apply names_of_NoDup|]. rewrite names_of_In. exact F2.
      - intros b Hb. apply In_succs in Hb. apply steps_ends in Hb. rewrite in_app_iff, names_of_In. cbn.
        destruct Hb as [[Hb|Hb] _]; auto. }
    rewrite <- Hlen. rewrite counts_01.
    - split; intros [b Hb]; exists b; intros b' Hb'; apply Hb, In_succs, Hb'.
    - apply NoDup_snoc; [apply names_of_NoDup|]. rewrite names_of_In. exact F2.
    - intros b Hb. apply In_succs in Hb. apply steps_ends in Hb. rewrite in_app_iff, names_of_In. cbn.
      destruct Hb as [[Hb|Hb] _]; auto.
    - intros E. rewrite E in Hlen. cbn in Hlen. lia. }
  assert (Zi : shannon (ratios (in_counts log ign e) (count_occ str_eq_dec (occurrences log ign) e)) = 0 <->
               exists b, forall b', In (b', e) (steps log ign true) -> b' = b).
  { rewrite (shannon_zero _ Di), Forall_ratios_01 by exact Hc'. unfold in_counts.
    assert (Hlen : length (preds e (steps log ign true)) = count_occ str_eq_dec (occurrences log ign) e).
    { rewrite <- Si. unfold in_counts. symmetry. apply list_sum_count_occ.
      - apply NoDup_snoc; [apply names_of_NoDup|]. rewrite names_of_In. exact F1.
      - intros b Hb. apply In_preds in Hb. apply steps_ends in Hb. rewrite in_app_iff, names_of_In. cbn.
        destruct Hb as [_ [Hb|Hb]]; auto. }
    rewrite <- Hlen. rewrite counts_01.
    - split; intros [b Hb]; exists b; intros b' Hb'; apply Hb, In_preds, Hb'.
    - apply NoDup_snoc; [apply names_of_NoDup|]. rewrite names_of_In. exact F1.
    - intros b Hb. apply In_preds in Hb. apply steps_ends in Hb. rewrite in_app_iff, names_of_In. cbn.
      destruct Hb as [_ [Hb|Hb]]; auto.
    - intros E. rewrite E in Hlen. cbn in Hlen. lia. }
  rewrite <- Zo, <- Zi. split; [intros H; split; lra|intros [H1 H2]; lra].
Qed.

Lemma laplace_value_spec log ign e :
  fake_free log -> In e (occurrences log ign) ->
  0 < laplace_value log ign e <= 2 * (ln (INR (length (names_of log ign) + 1)) / ln 2).
Proof.
  intros Hf He. pose proof He as Hc. apply (count_occ_In str_eq_dec) in Hc.
  pose proof (names_nonempty log ign e He) as Hn.
  assert (Hc' : (0 < count_occ str_eq_dec (occurrences log ign) e)%nat) by lia.
  destruct (laplace_distribution _ _ _ Hc' Hn (out_counts_sum log ign e Hf He) (out_counts_length log ign e)) as [A1 A2].
  destruct (laplace_distribution _ _ _ Hc' Hn (in_counts_sum log ign e Hf He) (in_counts_length log ign e)) as [B1 B2].
  unfold laplace_value. cbn zeta.
  set (v := laplace_ratios (out_counts log ign e) _ _) in *. set (w := laplace_ratios (in_counts log ign e) _ _) in *.
  assert (Lv : length v = (length (names_of log ign) + 1)%nat) by (unfold v, laplace_ratios; rewrite map_length; apply out_counts_length).
  assert (Lw : length w = (length (names_of log ign) + 1)%nat) by (unfold w, laplace_ratios; rewrite map_length; apply in_counts_length).
  assert (Nv : v <> []) by (intros E; rewrite E in Lv; cbn in Lv; lia).
  assert (Nw : w <> []) by (intros E; rewrite E in Lw; cbn in Lw; lia).
  pose proof (shannon_le v Nv A1) as Uv. pose proof (shannon_le w Nw B1) as Uw. rewrite Lv in Uv. rewrite Lw in Uw.
  destruct A1 as [A1 _]. destruct B1 as [B1 _].
  assert (Pv : 0 < shannon v).
  { destruct v as [|p v']; [congruence|]. apply (shannon_pos _ p A1); [left; reflexivity|]. inversion A2; assumption. }
  pose proof (shannon_nonneg w B1) as Pw. lra.
Qed.

Lemma default_entropy_proof log ign :
  fake_free log ->
  exists d, calculate_default_entropies log ign = Ok d /\
    NoDup (dkeys d) /\ (forall n, In n (dkeys d) <-> In n (occurrences log ign)) /\
    forall n h, In (n, h) d ->
      0 <= h <= 2 * (ln (INR (length d + 1)) / ln 2) /\
      (h = 0 <-> (exists b, forall b', In (n, b') (steps log ign true) -> b' = b) /\
                 (exists a, forall a', In (a', n) (steps log ign true) -> a' = a)).
Proof.
  intros Hf. eexists. split; [apply default_entropies_eq|].
  assert (K : dkeys (map (fun n => (n, default_value log ign n)) (names_of log ign)) = names_of log ign)
    by (unfold dkeys; rewrite map_map; apply map_id).
  rewrite K. split; [apply names_of_NoDup|split; [apply names_of_In|]].
  intros n h Hin. apply in_map_iff in Hin. destruct Hin as [m [E Hm]]. injection E as <- <-.
  rewrite map_length. apply default_value_spec; [exact Hf|]. apply names_of_In; exact Hm.
Qed.

Lemma laplace_entropy_proof log ign :
  fake_free log ->
  exists d, calculate_laplace_entropies log ign = Ok d /\
    NoDup (dkeys d) /\ (forall n, In n (dkeys d) <-> In n (occurrences log ign)) /\
    forall n h, In (n, h) d -> 0 < h <= 2 * (ln (INR (length d + 1)) / ln 2).
Proof.
  intros Hf. eexists. split; [apply laplace_entropies_eq|].
  assert (K : dkeys (map (fun n => (n, laplace_value log ign n)) (names_of log ign)) = names_of log ign)
    by (unfold dkeys; rewrite map_map; apply map_id).
  rewrite K. split; [apply names_of_NoDup|split; [apply names_of_In|]].
  intros n h Hin. apply in_map_iff in Hin. destruct Hin as [m [E Hm]]. injection E as <- <-.
  rewrite map_length. apply laplace_value_spec; [exact Hf|]. apply names_of_In; exact Hm.
Qed.

Lemma default_formula_proof log ign :
  exists d, calculate_default_entropies log ign = Ok d /\
    forall n h, In (n, h) d ->
      h = shannon (map (fun b => INR (count_occ pair_eq_dec (steps log ign true) (n, b)) /
                                 INR (count_occ str_eq_dec (occurrences log ign) n))
                       (dkeys d ++ [str "FAKE_END"])) +
          shannon (map (fun a => INR (count_occ pair_eq_dec (steps log ign true) (a, n)) /
                                 INR (count_occ str_eq_dec (occurrences log ign) n))
                       (dkeys d ++ [str "FAKE_START"])).
Proof.
  eexists. split; [apply default_entropies_eq|].
  assert (K : dkeys (map (fun n => (n, default_value log ign n)) (names_of log ign)) = names_of log ign)
    by (unfold dkeys; rewrite map_map; apply map_id).
  rewrite K. intros n h Hin. apply in_map_iff in Hin. destruct Hin as [m [E Hm]]. injection E as <- <-.
  unfold default_value, ratios, out_counts, in_counts. rewrite !map_map.
  f_equal; f_equal; apply map_ext; intros x; [rewrite count_succs|rewrite count_preds]; reflexivity.
Qed.

Lemma laplace_formula_proof log ign :
  exists d, calculate_laplace_entropies log ign = Ok d /\
    forall n h, In (n, h) d ->
      let c := INR (count_occ str_eq_dec (occurrences log ign) n) in
      let smooth := fun k : nat => (1 / c + INR k) / (1 / c * INR (length d + 1) + c) in
      h = shannon (map (fun b => smooth (count_occ pair_eq_dec (steps log ign true) (n, b)))
                       (dkeys d ++ [str "FAKE_END"])) +
          shannon (map (fun a => smooth (count_occ pair_eq_dec (steps log ign true) (a, n)))
                       (dkeys d ++ [str "FAKE_START"])).
Proof.
  eexists. split; [apply laplace_entropies_eq|].
  assert (K : dkeys (map (fun n => (n, laplace_value log ign n)) (names_of log ign)) = names_of log ign)
    by (unfold dkeys; rewrite map_map; apply map_id).
  rewrite K, map_length. intros n h Hin. apply in_map_iff in Hin. destruct Hin as [m [E Hm]]. injection E as <- <-.
  unfold laplace_value, laplace_ratios, out_counts, in_counts. cbn zeta. rewrite !map_map.
  f_equal; f_equal; apply map_ext; intros x; [rewrite count_succs|rewrite count_preds]; reflexivity.
Qed.

Lemma fold_left_total l : forall acc, fold_left Rplus l acc = acc + total l.
Proof. induction l as [|x l IH]; intros acc; cbn [fold_left]; [unfold total; cbn; lra|]. rewrite IH. unfold total. cbn. lra. Qed.
Lemma total_bound l B : (forall x, In x l -> 0 <= x <= B) -> 0 <= total l <= INR (length l) * B.
Proof.
  induction l as [|x l IH]; intros H; [cbn; lra|]. change (total (x :: l)) with (x + total l). change (length (x :: l)) with (S (length l)). rewrite S_INR.
  pose proof (H x (or_introl eq_refl)). destruct IH as [I1 I2]; [intros y Hy; apply H; right; exact Hy|]. split; [lra|]. rewrite Rmult_plus_distr_r. lra.
Qed.
Lemma average_proof laplace log ign : fake_free log ->
  exists d s a, calculate_laplace_or_default_entropies laplace log ign = Ok d /\
    calculate_default_entropy_sum laplace log ign = Ok s /\ calculate_default_entropy_average laplace log ign = Ok a /\
    s = total (map snd d) /\ a * INR (length d) = s /\ (d = [] -> a = 0) /\ 0 <= a <= 2 * (ln (INR (length d + 1)) / ln 2).
Proof.
  intros Hf. assert (H : exists d, calculate_laplace_or_default_entropies laplace log ign = Ok d /\ forall x, In x (map snd d) -> 0 <= x <= 2 * (ln (INR (length d + 1)) / ln 2)).
  { unfold calculate_laplace_or_default_entropies. destruct laplace.
    - destruct (laplace_entropy_proof log ign Hf) as [d [E [_ [_ B]]]]. exists d. split; [exact E|]. intros x Hx. apply in_map_iff in Hx. destruct Hx as [[n h] [<- Hin]]. cbn. specialize (B n h Hin). lra.
    - destruct (default_entropy_proof log ign Hf) as [d [E [_ [_ B]]]]. exists d. split; [exact E|]. intros x Hx. apply in_map_iff in Hx. destruct Hx as [[n h] [<- Hin]]. cbn. apply (B n h Hin). }
  destruct H as [d [E B]]. exists d. unfold calculate_default_entropy_sum, calculate_default_entropy_average. rewrite E. cbn [bind].
  assert (Es : sum_values d = total (map snd d)) by (unfold sum_values, dvalues; rewrite fold_left_total; lra). rewrite Es.
  eexists; eexists. split; [reflexivity|]. split; [reflexivity|]. split; [reflexivity|]. split; [reflexivity|].
  pose proof (total_bound _ _ B) as TB. rewrite map_length in TB. destruct d as [|x d]; cbn [length Nat.eqb].
  - cbn [map] in *. unfold total in *. cbn [fold_right] in *. split; [cbn; lra|]. split; [reflexivity|]. rewrite Nat.add_0_l in *. cbn [INR]. rewrite ln_1. unfold Rdiv. lra.
  - set (m := S (length d)) in *. change (length (x :: d)) with m in *. assert (Hm : 0 < INR m) by (apply lt_0_INR; unfold m; lia). split; [field; lra|]. split; [discriminate|].
    split.
    + apply Rmult_le_pos; [apply TB|]. left. apply Rinv_0_lt_compat. exact Hm.
    + apply (Rmult_le_reg_r (INR m)); [exact Hm|]. unfold Rdiv at 1. rewrite Rmult_assoc, Rinv_l, Rmult_1_r by lra. rewrite Rmult_comm. apply TB.
Qed.
