From Coq Require Import Permutation Reals Lra.
From Verif Require Import Py PyFacts InfoModel InfoSpec InfoProofs ReplayModel PosModel PosSpec PosProofs EntropyModel EntropySpec EntropyProofs
  RInfoModel RInfoSpec RInfoProofs REntModel REntProofs.
Open Scope R_scope.

(* ---- entropies of the directly follows relation ---- *)
Lemma r_entropy_shannon v : r_entropy v = shannon v.
Proof. exact (calculate_entropy_shannon v). Qed.

Lemma total_perm l l' : Permutation l l' -> total l = total l'.
Proof. induction 1; unfold total in *; cbn; lra. Qed.
Lemma shannon_perm l l' : Permutation l l' -> shannon l = shannon l'.
Proof. intros P. unfold shannon. apply total_perm, Permutation_map, P. Qed.

Lemma entries_eq {V} (g : pystr -> V) (d : dict pystr V) : (forall n x, In (n, x) d -> x = g n) -> d = map (fun n => (n, g n)) (dkeys d).
Proof.
  intros X. induction d as [|[n x] d IH]; [reflexivity|]. cbn [dkeys map fst]. f_equal.
  - f_equal. apply X. left; reflexivity.
  - apply IH. intros m y H. apply X. right; exact H.
Qed.

Lemma r_dfg_entropy_eq ord info dfr dpr : NoDup (r_all_event_classes ord 13 info) ->
  r_dfg_entropy ord info dfr dpr =
  map (fun n => (n, shannon (map (fun x => dfr n x info) (r_all_event_classes ord 13 info ++ [fake_end_name])) +
                    shannon (map (fun x => dpr n x info) (r_all_event_classes ord 13 info ++ [fake_start_name]))))
      (r_all_event_classes ord 13 info).
Proof.
  intros N. unfold r_dfg_entropy. cbv zeta.
  set (names := r_all_event_classes ord 13 info) in *.
  set (g := fun n => r_entropy (map (fun x => dfr n x info) (names ++ [fake_end_name])) + r_entropy (map (fun x => dpr n x info) (names ++ [fake_start_name]))).
  change (fold_left (fun acc n => dset str_eq_dec acc n (g n)) names [] = map (fun n => (n, shannon (map (fun x => dfr n x info) (names ++ [fake_end_name])) +
                    shannon (map (fun x => dpr n x info) (names ++ [fake_start_name])))) names).
  rewrite fold_dset_fresh; [|exact N|intros n _ []]. apply map_ext. intros n. unfold g. rewrite !r_entropy_shannon. reflexivity.
Qed.

Lemma r_classes_perm ord log ign fake k : any_order ord ->
  Permutation (r_all_event_classes ord k (r_create_from ord log fake ign)) (dkeys (li_events_count (create_log_information log ign true))).
Proof.
  intros O. destruct (counts_proof ord O log fake ign) as (_ & K & _). destruct (K k) as [N M].
  apply NoDup_Permutation; [exact N|apply (info_keys_proof log ign true)|].
  intros n. rewrite M. symmetry. apply (info_keys_proof log ign true).
Qed.

Lemma classes_count_eq ord log ign fake : any_order ord ->
  r_classes_count (r_create_from ord log fake ign) = length (dkeys (li_events_count (create_log_information log ign true))).
Proof.
  intros O. rewrite <- (Permutation_length (r_classes_perm ord log ign fake 13 O)). unfold r_classes_count, r_all_event_classes.
  rewrite (Permutation_length (O 13%nat _ _)). unfold dkeys. rewrite map_length. reflexivity.
Qed.

Lemma names_perm {A} (l l' m : list A) : Permutation l l' -> Permutation (l ++ m) (l' ++ m).
Proof. intros P. apply Permutation_app_tail, P. Qed.

Lemma r_default_proof ord log ign : any_order ord ->
  exists d, calculate_default_entropies log ign = Ok d /\ Permutation (r_default_dfg_entropy ord log ign) d.
Proof.
  intros O. destruct (default_formula_proof log ign) as (d & E & X). exists d. split; [exact E|].
  destruct (counts_proof ord O log true ign) as (C & K & D & _).
  assert (Kd : dkeys d = dkeys (li_events_count (create_log_information log ign true))).
  { pose proof (default_entropies_eq log ign) as E'. rewrite E in E'. injection E' as ->. apply dkeys_map. }
  pose proof (r_classes_perm ord log ign true 13 O) as P. rewrite <- Kd in P. destruct (K 13%nat) as [N _].
  unfold r_default_dfg_entropy. rewrite r_dfg_entropy_eq by exact N.
  rewrite (entries_eq _ _ X) at 1.
  etransitivity; [|apply Permutation_map, P].
  erewrite map_ext; [apply Permutation_refl|]. intros n. cbn beta. f_equal. rewrite C. f_equal; apply shannon_perm.
  - rewrite (map_ext _ (fun b => INR (count_occ pair_eq_dec (steps log ign true) (n, b)) / INR (count_occ str_eq_dec (occurrences log ign) n)))
      by (intros b; rewrite D; reflexivity). apply Permutation_map, names_perm, P.
  - rewrite (map_ext _ (fun a => INR (count_occ pair_eq_dec (steps log ign true) (a, n)) / INR (count_occ str_eq_dec (occurrences log ign) n)))
      by (intros b; rewrite D; reflexivity). apply Permutation_map, names_perm, P.
Qed.

Lemma r_laplace_proof ord log ign : any_order ord ->
  exists d, calculate_laplace_entropies log ign = Ok d /\ Permutation (r_laplace_dfg_entropy ord log ign) d.
Proof.
  intros O. destruct (laplace_formula_proof log ign) as (d & E & X). exists d. split; [exact E|]. cbv zeta in X.
  destruct (counts_proof ord O log true ign) as (C & K & D & _).
  assert (Kd : dkeys d = dkeys (li_events_count (create_log_information log ign true))).
  { pose proof (laplace_entropies_eq log ign) as E'. rewrite E in E'. injection E' as ->. apply dkeys_map. }
  assert (L : r_classes_count (r_create_from ord log true ign) = length d).
  { rewrite classes_count_eq by exact O. rewrite <- Kd. unfold dkeys. apply map_length. }
  pose proof (r_classes_perm ord log ign true 13 O) as P. rewrite <- Kd in P. destruct (K 13%nat) as [N _].
  unfold r_laplace_dfg_entropy. rewrite r_dfg_entropy_eq by exact N.
  rewrite (entries_eq _ _ X) at 1.
  etransitivity; [|apply Permutation_map, P].
  erewrite map_ext; [apply Permutation_refl|]. intros n. cbn beta. f_equal. rewrite C, L. unfold r_laplace. cbv zeta. f_equal; apply shannon_perm.
  - etransitivity; [|apply Permutation_map, names_perm, P].
    erewrite map_ext; [apply Permutation_refl|]. intros b. cbn beta. rewrite D. reflexivity.
  - etransitivity; [|apply Permutation_map, names_perm, P].
    erewrite map_ext; [apply Permutation_refl|]. intros b. cbn beta. rewrite D. reflexivity.
Qed.

(* ---- the value of the position entropy ---- *)
Definition term (n c : nat) : R := - log2 (INR c / INR n) / log2 (INR n).

Lemma ln2_pos : 0 < ln 2.
Proof. rewrite <- ln_1. apply ln_increasing; lra. Qed.
Lemma ln_INR_pos n : (2 <= n)%nat -> 0 < ln (INR n).
Proof. intros H. rewrite <- ln_1. apply ln_increasing; [lra|]. apply (lt_INR 1 n). lia. Qed.

Lemma term_eq n c : (2 <= n)%nat -> (1 <= c)%nat -> term n c = 1 - ln (INR c) / ln (INR n).
Proof.
  intros Hn Hc. unfold term, log2. pose proof ln2_pos. pose proof (ln_INR_pos n Hn).
  assert (0 < INR c) by (apply lt_0_INR; lia). assert (0 < INR n) by (apply lt_0_INR; lia).
  assert (E : ln (INR c / INR n) = ln (INR c) + - ln (INR n)).
  { unfold Rdiv. rewrite ln_mult; [|assumption|apply Rinv_0_lt_compat; assumption]. rewrite ln_Rinv by assumption. reflexivity. }
  rewrite E.
  field. split; lra.
Qed.

Lemma term_facts n c : (2 <= n)%nat -> (1 <= c <= n)%nat ->
  0 <= term n c <= 1 /\ (term n c = 0 <-> c = n) /\ (term n c = 1 <-> c = 1%nat).
Proof.
  intros Hn [H1 H2]. rewrite term_eq by assumption. pose proof (ln_INR_pos n Hn) as L.
  assert (Hc : 0 < INR c) by (apply lt_0_INR; lia).
  assert (Z : 0 <= ln (INR c)).
  { destruct (Nat.eq_dec c 1) as [->|Hne]; [cbn; rewrite ln_1; lra|]. left. apply ln_INR_pos. lia. }
  assert (U : (c < n)%nat -> ln (INR c) < ln (INR n)) by (intros H; apply ln_increasing; [exact Hc|apply lt_INR; exact H]).
  assert (P : forall x, x / ln (INR n) * ln (INR n) = x) by (intros x; field; lra).
  assert (Q : 0 <= ln (INR c) / ln (INR n)) by (apply Rmult_le_pos; [exact Z|left; apply Rinv_0_lt_compat; exact L]).
  split; [|split].
  - split; [|lra]. destruct (Nat.eq_dec c n) as [->|Hne].
    + unfold Rdiv. rewrite Rinv_r by lra. lra.
    + assert (ln (INR c) < ln (INR n)) by (apply U; lia).
      assert (ln (INR c) / ln (INR n) < 1); [|lra]. apply Rmult_lt_reg_r with (ln (INR n)); [exact L|]. rewrite P. lra.
  - split.
    + intros E. destruct (Nat.eq_dec c n) as [e|Hne]; [exact e|]. assert (ln (INR c) < ln (INR n)) by (apply U; lia).
      assert (ln (INR c) / ln (INR n) = 1) by lra. pose proof (P (ln (INR c))). rewrite H0 in H3. lra.
    + intros ->. unfold Rdiv. rewrite Rinv_r by lra. lra.
  - split.
    + intros E. destruct (Nat.eq_dec c 1) as [e|Hne]; [exact e|]. assert (0 < ln (INR c)) by (apply ln_INR_pos; lia).
      assert (ln (INR c) / ln (INR n) = 0) by lra. pose proof (P (ln (INR c))). rewrite H0 in H3. lra.
    + intros ->. cbn [INR]. rewrite ln_1. unfold Rdiv. rewrite Rmult_0_l. lra.
Qed.

Lemma r_pos_entropy_eq counts n : (1 <= n)%nat ->
  let ks := filter (fun c => negb (c =? 0)%nat) counts in
  r_pos_entropy counts n = total (map (term n) ks) / INR (length ks).
Proof.
  intros Hn ks. unfold r_pos_entropy. assert (N : INR n <> 0) by (apply not_0_INR; lia).
  assert (F : filter (fun p => if Req_EM_T p 0 then false else true) (map (fun c => INR c / INR n) counts) = map (fun c => INR c / INR n) ks).
  { unfold ks. induction counts as [|c counts IH]; [reflexivity|]. cbn [map filter]. rewrite IH.
    destruct (Req_EM_T (INR c / INR n) 0) as [E|E]; destruct (Nat.eqb_spec c 0) as [Ec|Ec]; cbn [negb map]; try reflexivity; exfalso.
    - apply Ec. apply INR_eq. cbn. apply (Rmult_eq_compat_r (INR n)) in E. unfold Rdiv in E. rewrite Rmult_assoc, Rinv_l, Rmult_1_r, Rmult_0_l in E by exact N. exact E.
    - apply E. rewrite Ec. cbn. unfold Rdiv. ring. }
  rewrite F, map_length, map_map, fold_left_total, Rplus_0_l. reflexivity.
Qed.

Lemma total_zero l : (forall x, In x l -> 0 <= x) -> total l = 0 -> forall x, In x l -> x = 0.
Proof.
  induction l as [|a l IH]; intros H T x; [intros []|]. change (total (a :: l)) with (a + total l) in T.
  pose proof (H a (or_introl eq_refl)). assert (P : 0 <= total l).
  { assert (G : forall l, (forall x, In x l -> 0 <= x) -> 0 <= total l).
    { clear. induction l as [|a l IH]; intros H; [unfold total; cbn; lra|]. change (total (a :: l)) with (a + total l).
      pose proof (H a (or_introl eq_refl)). assert (0 <= total l) by (apply IH; intros y Hy; apply H; right; exact Hy). lra. }
    apply G. intros y Hy. apply H. right; exact Hy. }
  intros [<-|Hx]; [lra|]. apply IH; [intros y Hy; apply H; right; exact Hy|lra|exact Hx].
Qed.
Lemma total_one_minus l : total (map (fun x => 1 - x) l) = INR (length l) - total l.
Proof.
  induction l as [|a l IH]; [unfold total; cbn; lra|]. cbn [map]. change (total (1 - a :: map (fun x => 1 - x) l)) with (1 - a + total (map (fun x => 1 - x) l)).
  rewrite IH. change (total (a :: l)) with (a + total l). change (length (a :: l)) with (S (length l)). rewrite S_INR. lra.
Qed.
Lemma total_same l a : (forall x, In x l -> x = a) -> total l = INR (length l) * a.
Proof.
  induction l as [|x l IH]; intros H; [unfold total; cbn; lra|]. change (total (x :: l)) with (x + total l). change (length (x :: l)) with (S (length l)).
  rewrite IH by (intros y Hy; apply H; right; exact Hy). rewrite (H x (or_introl eq_refl)), S_INR. lra.
Qed.

Lemma r_pos_entropy_range counts n : (2 <= n)%nat -> (forall c, In c counts -> (c <= n)%nat) -> (exists c, In c counts /\ c <> 0%nat) ->
  0 <= r_pos_entropy counts n <= 1 /\
  (r_pos_entropy counts n = 0 <-> forall c, In c counts -> c = 0%nat \/ c = n) /\
  (r_pos_entropy counts n = 1 <-> forall c, In c counts -> (c <= 1)%nat).
Proof.
  intros Hn Hc Hx. rewrite r_pos_entropy_eq by lia. cbv zeta. set (ks := filter (fun c => negb (c =? 0)%nat) counts).
  assert (K : forall c, In c ks <-> In c counts /\ c <> 0%nat).
  { intros c. unfold ks. rewrite filter_In, negb_true_iff, Nat.eqb_neq. reflexivity. }
  assert (T : forall c, In c ks -> 0 <= term n c <= 1 /\ (term n c = 0 <-> c = n) /\ (term n c = 1 <-> c = 1%nat)).
  { intros c H. apply K in H. destruct H as [H1 H2]. apply term_facts; [exact Hn|]. specialize (Hc c H1). lia. }
  assert (L : 0 < INR (length ks)).
  { apply lt_0_INR. destruct Hx as (c & H1 & H2). assert (In c ks) by (apply K; auto). destruct ks; [destruct H|cbn; lia]. }
  assert (Mem : forall x, In x (map (term n) ks) -> 0 <= x <= 1).
  { intros x H. apply in_map_iff in H. destruct H as (c & <- & H). apply T, H. }
  pose proof (total_bound (map (term n) ks) 1 Mem) as B. rewrite map_length in B.
  set (s := total (map (term n) ks)) in *.
  assert (Dv : s / INR (length ks) * INR (length ks) = s) by (field; lra).
  split; [|split].
  - split; [apply Rmult_le_pos; [lra|left; apply Rinv_0_lt_compat; exact L]|]. apply Rmult_le_reg_r with (INR (length ks)); [exact L|]. rewrite Dv. lra.
  - split.
    + intros E. rewrite E, Rmult_0_l in Dv. intros c H. destruct (Nat.eq_dec c 0) as [e|Hne]; [left; exact e|]. right.
      assert (I : In c ks) by (apply K; auto). apply (T c I). apply (total_zero (map (term n) ks)); [intros x Hx'; apply Mem, Hx'|symmetry; exact Dv|].
      apply in_map. exact I.
    + intros H. replace s with 0; [unfold Rdiv; ring|]. unfold s. rewrite (total_same _ 0); [ring|].
      intros x Hi. apply in_map_iff in Hi. destruct Hi as (c & <- & Hi). apply (T c Hi). apply K in Hi. destruct Hi as [H1 H2]. destruct (H c H1); [contradiction|assumption].
  - split.
    + intros E. rewrite E, Rmult_1_l in Dv. intros c H. destruct (Nat.eq_dec c 0) as [e|Hne]; [lia|].
      assert (I : In c ks) by (apply K; auto). enough (c = 1%nat) by lia. apply (T c I).
      assert (Z : 1 - term n c = 0); [|lra]. apply (total_zero (map (fun x => 1 - x) (map (term n) ks))).
      * intros x Hi. apply in_map_iff in Hi. destruct Hi as (y & <- & Hi). specialize (Mem y Hi). lra.
      * rewrite total_one_minus, map_length. fold s. lra.
      * apply in_map_iff. exists (term n c). split; [reflexivity|]. apply in_map. exact I.
    + intros H. replace s with (INR (length ks)); [unfold Rdiv; apply Rinv_r; lra|]. unfold s. rewrite (total_same _ 1); [rewrite map_length; ring|].
      intros x Hi. apply in_map_iff in Hi. destruct Hi as (c & <- & Hi). apply (T c Hi). apply K in Hi. destruct Hi as [H1 H2]. specialize (H c H1). lia.
Qed.

Lemma traces_with_at_le log ign e j : (traces_with_at log ign e j <= non_empty_traces log ign)%nat.
Proof.
  unfold traces_with_at, non_empty_traces, how_many. induction log as [|t log IH]; [cbn; lia|]. cbn [filter].
  unfold is_at at 1. destruct (kept ign t) as [|x k]; [destruct j; cbn; exact IH|].
  destruct (match nth_error (x :: k) j with Some m => eqs e m | None => false end); cbn [length]; lia.
Qed.

Lemma traces_with_at_far log ign e j : (longest log ign <= j)%nat -> traces_with_at log ign e j = 0%nat.
Proof.
  intros H. unfold traces_with_at, how_many.
  assert (G : forall l, (forall t, In t l -> In t log) -> filter (fun t => is_at e j (kept ign t)) l = []).
  { induction l as [|t l IH]; intros Hl; [reflexivity|]. cbn [filter]. unfold is_at at 1.
    assert (F : nth_error (kept ign t) j = None).
    { apply nth_error_None. pose proof (longest_ge log ign t (Hl t (or_introl eq_refl))). lia. }
    rewrite F. apply IH. intros u Hu. apply Hl. right; exact Hu. }
  rewrite G; auto.
Qed.

Lemma occurrence_at log ign n : In n (occurrences log ign) -> exists j, (j < longest log ign)%nat /\ traces_with_at log ign n j <> 0%nat.
Proof.
  intros H. unfold occurrences in H. apply in_flat_map in H. destruct H as (t & Ht & H). apply In_nth_error in H. destruct H as (j & H). exists j. split.
  - pose proof (longest_ge log ign t Ht). assert (nth_error (kept ign t) j <> None) by congruence. apply nth_error_Some in H1. lia.
  - unfold traces_with_at, how_many. assert (I : In t (filter (fun t => is_at n j (kept ign t)) log)).
    { apply filter_In. split; [exact Ht|]. unfold is_at. rewrite H. apply eqs_eq. reflexivity. }
    destruct (filter _ log); [destruct I|cbn; lia].
Qed.

Lemma r_pos_range_proof ord log ign : any_order ord -> match ign with None => True | Some set => NoDup set end ->
  (2 <= non_empty_traces log ign)%nat ->
  exists d, r_pos_entropies_fast ord r_pos_entropy log ign = Ok d /\ (forall n, In n (dkeys d) <-> In n (occurrences log ign)) /\
    forall n x, In (n, x) d -> 0 <= x <= 1 /\
      (x = 0 <-> forall j, traces_with_at log ign n j = 0%nat \/ traces_with_at log ign n j = non_empty_traces log ign) /\
      (x = 1 <-> forall j, (traces_with_at log ign n j <= 1)%nat).
Proof.
  intros O V Hn. destruct (r_pos_tables_proof ord r_pos_entropy log ign O V) as (d & E & _ & _ & M & X).
  exists d. split; [exact E|]. split; [exact M|]. intros n x H. pose proof (X n x H) as Ex.
  assert (Hk : In n (occurrences log ign)). { apply M. apply in_map_iff. exists (n, x). auto. }
  assert (C : forall P : nat -> Prop, P 0%nat ->
     ((forall c, In c (position_counts log ign n) -> P c) <-> (forall j, P (traces_with_at log ign n j)))).
  { intros P P0. unfold position_counts. split.
    - intros A j. destruct (le_lt_dec (longest log ign) j) as [F|F]; [rewrite traces_with_at_far by exact F; exact P0|].
      apply A, in_map, in_seq. lia.
    - intros A c Hc. apply in_map_iff in Hc. destruct Hc as (j & <- & _). apply A. }
  destruct (r_pos_entropy_range (position_counts log ign n) (non_empty_traces log ign) Hn) as (R1 & R2 & R3).
  - apply C; [lia|]. intros j. apply traces_with_at_le.
  - destruct (occurrence_at log ign n Hk) as (j & H1 & H2). exists (traces_with_at log ign n j). split; [|exact H2].
    unfold position_counts. apply in_map, in_seq. lia.
  - rewrite Ex. split; [exact R1|]. split.
    + rewrite R2. apply C. left; reflexivity.
    + rewrite R3. apply C. lia.
Qed.

Lemma r_default_formula ord log ign : any_order ord ->
  let d := r_default_dfg_entropy ord log ign in
  NoDup (dkeys d) /\ (forall n, In n (dkeys d) <-> In n (occurrences log ign)) /\
  forall n h, In (n, h) d ->
    let c := INR (count_occ str_eq_dec (occurrences log ign) n) in
    h = shannon (map (fun b => INR (count_occ pair_eq_dec (steps log ign true) (n, b)) / c) (dkeys d ++ [str "FAKE_END"])) +
        shannon (map (fun a => INR (count_occ pair_eq_dec (steps log ign true) (a, n)) / c) (dkeys d ++ [str "FAKE_START"])).
Proof.
  intros O. destruct (counts_proof ord O log true ign) as (C & K & D & _). destruct (K 13%nat) as [N M].
  unfold r_default_dfg_entropy. rewrite r_dfg_entropy_eq by exact N. cbv zeta. rewrite dkeys_map. split; [exact N|]. split; [exact M|].
  intros n h H. apply in_map_iff in H. destruct H as (m & H & _). injection H as <- <-. rewrite C.
  f_equal; f_equal; apply map_ext; intros x; rewrite D; reflexivity.
Qed.

Lemma r_laplace_formula ord log ign : any_order ord ->
  let d := r_laplace_dfg_entropy ord log ign in
  NoDup (dkeys d) /\ (forall n, In n (dkeys d) <-> In n (occurrences log ign)) /\
  forall n h, In (n, h) d ->
    let c := INR (count_occ str_eq_dec (occurrences log ign) n) in
    let smooth := fun k : nat => (1 / c + INR k) / (1 / c * INR (length d + 1) + c) in
    h = shannon (map (fun b => smooth (count_occ pair_eq_dec (steps log ign true) (n, b))) (dkeys d ++ [str "FAKE_END"])) +
        shannon (map (fun a => smooth (count_occ pair_eq_dec (steps log ign true) (a, n))) (dkeys d ++ [str "FAKE_START"])).
Proof.
  intros O. destruct (counts_proof ord O log true ign) as (C & K & D & _). destruct (K 13%nat) as [N M].
  assert (L : r_classes_count (r_create_from ord log true ign) = length (r_all_event_classes ord 13 (r_create_from ord log true ign))).
  { unfold r_classes_count, r_all_event_classes. rewrite (Permutation_length (O 13%nat _ _)). unfold dkeys. rewrite map_length. reflexivity. }
  unfold r_laplace_dfg_entropy. rewrite r_dfg_entropy_eq by exact N. cbv zeta. rewrite dkeys_map, map_length. split; [exact N|]. split; [exact M|].
  intros n h H. apply in_map_iff in H. destruct H as (m & H & _). injection H as <- <-. rewrite C, L. unfold r_laplace. cbv zeta.
  f_equal; f_equal; apply map_ext; intros x; rewrite D; reflexivity.
Qed.

Lemma r_dfg_bounds ord log ign : any_order ord -> fake_free log ->
  (forall n h, In (n, h) (r_default_dfg_entropy ord log ign) ->
     0 <= h <= 2 * (ln (INR (length (r_default_dfg_entropy ord log ign) + 1)) / ln 2) /\
     (h = 0 <-> (exists b, forall b', In (n, b') (steps log ign true) -> b' = b) /\
                (exists a, forall a', In (a', n) (steps log ign true) -> a' = a))) /\
  (forall n h, In (n, h) (r_laplace_dfg_entropy ord log ign) ->
     0 < h <= 2 * (ln (INR (length (r_laplace_dfg_entropy ord log ign) + 1)) / ln 2)).
Proof.
  intros O F. destruct (r_default_proof ord log ign O) as (d & E & P). destruct (r_laplace_proof ord log ign O) as (l & E' & P').
  destruct (default_entropy_proof log ign F) as (d' & H1 & _ & _ & H2). rewrite E in H1. injection H1 as <-.
  destruct (laplace_entropy_proof log ign F) as (l' & G1 & _ & _ & G2). rewrite E' in G1. injection G1 as <-.
  rewrite (Permutation_length P), (Permutation_length P'). split; intros n h H.
  - apply H2. eapply Permutation_in; eassumption.
  - apply (G2 n h). eapply Permutation_in; eassumption.
Qed.
