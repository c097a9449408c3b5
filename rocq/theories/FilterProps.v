(** Properties C19 (direct entropy filters) and C20 (indirect entropy filters). *)
From Coq Require Import Reals QArith Qround Permutation Lra.
From Verif Require Import Py LogModel MutModel MutSpec InfoModel InfoSpec EntropyModel EntropySpec PosModel PosSpec
  FilterModel FilterSpec FilterProofs FilterIndProofs.
Close Scope R_scope. Close Scope Q_scope. Open Scope nat_scope.

(** The name-sequence removal used by the filter model is what the removal function does to real
    event logs whose events all have string names. *)
Theorem C19_removal_bridge : forall log n,
  (forall e, in_log e log -> exists s, named e s) ->
  exists log', remove_event_from_log log n = Ok log' /\
    (forall e, in_log e log' -> exists s, named e s) /\
    names_log_of log' = remove_name (names_log_of log) (Some n).
Proof. exact removal_bridge_proof. Qed.
Print Assumptions C19_removal_bridge.

(** Default/Laplace entropies: the run ends (fuel above the number of distinct names is enough)
    with the outcome described by [direct_outcome]. *)
Theorem C19_default_direct : forall fuel log laplace threshold max u,
  length (distinct_names log) < fuel ->
  exists r, filter_events_default_entropy_direct fuel log laplace threshold max u = Some r /\
    direct_outcome Rgtb
      (fun l => bind (calculate_laplace_or_default_entropies laplace l None) (fun d => Ok (remove_untouchable d u)))
      (fun n => u n = false) threshold max log r.
Proof. exact default_direct_proof. Qed.
Print Assumptions C19_default_direct.

(** Position entropies, for any number type whose > is that of a total preorder. *)
Theorem C19_pos_direct : forall (F : Type) (gtb : F -> F -> bool) finish fuel log threshold max u,
  order_laws gtb -> length (distinct_names log) < fuel ->
  exists r, filter_events_pos_entropy_direct gtb finish fuel log threshold max u = Some r /\
    direct_outcome gtb
      (fun l => bind (position_entropies_fast finish l None None) (fun d => Ok (remove_untouchable d u)))
      (fun n => u n = false) threshold max log r.
Proof. exact @pos_direct_proof. Qed.
Print Assumptions C19_pos_direct.

(** Removing names one after another is removing them at once. *)
Theorem C19_after_is_without : forall log n ns, after (n :: ns) log = without log (n :: ns).
Proof. exact after_without. Qed.
Print Assumptions C19_after_is_without.

(** With the defaults (Laplace, threshold 0) nothing survives: the whole log is deleted. *)
Theorem C19_laplace_zero_deletes_everything : forall fuel log max,
  fake_free log -> no_empty_trace log -> length (distinct_names log) < fuel ->
  (max <= 0 \/ Z.of_nat (length (distinct_names log)) < max)%Z ->
  filter_events_default_entropy_direct fuel log true 0%R max (fun _ => false) = Some (Ok []).
Proof. exact laplace_zero_threshold_proof. Qed.
Print Assumptions C19_laplace_zero_deletes_everything.

(** Removal "till the end": without protected names every name of the log is reported exactly once, in
    greedy order, with the sum of the ratings before (or its change by) the removal; as soon as the
    log has a protected name the function raises ValueError. *)
Theorem C19_direct_till_end : forall (F : Type) (gtb : F -> F -> bool) finish add sub zero kind u fuel log,
  order_laws gtb -> no_empty_trace log -> length (distinct_names log) < fuel ->
  let metric := fun l => bind (position_entropies_fast finish l None None) (fun d => Ok (remove_untouchable d u)) in
  ((exists n, occurs n log /\ u n = true) ->
    filter_events_pos_entropy_direct_till_end gtb finish add sub zero fuel log kind u = Some (Err ValueError)) /\
  ((forall n, occurs n log -> u n = false) ->
   exists out, filter_events_pos_entropy_direct_till_end gtb finish add sub zero fuel log kind u = Some (Ok out) /\
    Permutation (map fst out) (distinct_names log) /\
    forall i n v, nth_error out i = Some (n, v) ->
      let l := after (firstn i (map fst out)) log in
      exists d m d', metric l = Ok d /\ In (n, m) d /\ (forall n' m', In (n', m') d -> gtb m' m = false) /\
        metric (without l [n]) = Ok d' /\
        v = match kind with BeforeOnly => fold_left add (dvalues d) zero
            | AfterBeforeDelta => sub (fold_left add (dvalues d) zero) (fold_left add (dvalues d') zero) end).
Proof. exact @pos_direct_till_end_proof. Qed.
Print Assumptions C19_direct_till_end.

(** max_events_to_remove = 0 is no limit: "at most max events" fails for it. *)
Theorem C19_zero_limit_refuted : exists log log' threshold,
  filter_events_pos_entropy_direct (fun a b => b <? a) (fun v _ => list_sum v) 9 log threshold 0 (fun _ => false)
    = Some (Ok log') /\ (length (distinct_names log') < length (distinct_names log)).
Proof.
  exists [[str "A"; str "B"; str "A"]; [str "B"; str "C"]], [[str "C"]], 1. vm_compute. auto.
Qed.
Print Assumptions C19_zero_limit_refuted.

Example C19_case :
  let log := [[str "A"; str "B"; str "A"]; [str "B"; str "C"]; [str "A"]] in
  filter_events_pos_entropy_direct (fun a b => b <? a) (fun v _ => list_sum v) 4 log 1 5 (fun n => str_eqb n (str "B"))
    = Some (Ok [[str "B"]; [str "B"; str "C"]]) /\
  filter_events_pos_entropy_direct (fun a b => b <? a) (fun v _ => list_sum v) 4 log 0 5 (fun n => str_eqb n (str "B"))
    = Some (Err ValueError) /\
  filter_events_pos_entropy_direct_till_end (fun a b => b <? a) (fun v _ => list_sum v) Nat.add Nat.sub 0 4 log
     AfterBeforeDelta (fun _ => false) = Some (Ok [(str "A", 3); (str "B", 2); (str "C", 1)]) /\
  order_laws (fun a b => b <? a).
Proof.
  cbn zeta. repeat split; try (vm_compute; reflexivity).
  - intros a. apply Nat.ltb_irrefl.
  - intros a b c. rewrite !Nat.ltb_ge. lia.
  - intros a b. rewrite Nat.ltb_lt, Nat.ltb_ge. lia.
Qed.

Example C19_laplace_case :
  filter_events_default_entropy_direct 3 [[str "A"; str "B"]; [str "B"]] true 0%R 1000000000 (fun _ => false) = Some (Ok []).
Proof.
  apply C19_laplace_zero_deletes_everything.
  - intros t [<-|[<-|[]]]; cbn; split; intros H; intuition discriminate.
  - intros [H|[H|[]]]; discriminate.
  - vm_compute. lia.
  - right. vm_compute. reflexivity.
Qed.

(** Default/Laplace entropies: at most max(1, max) steps; each step took, among the
    floor(top_percent * #names) highest rated names, the one whose real removal gives the least
    average. *)
Theorem C20_default_indirect : forall fuel log laplace threshold q max u,
  (0 <= q)%Q -> (q <= 1)%Q -> (Z.max 1 max <= Z.of_nat fuel)%Z ->
  exists log', filter_events_default_entropy_indirect fuel log laplace threshold q max u = Some (Ok log') /\
    indirect_outcome Rltb Rleb R_1e10 true (fun l => calculate_default_entropy_average laplace l None)
      (fun l cands => exists d, calculate_laplace_or_default_entropies laplace l None = Ok d /\ top_of d q cands)
      u threshold max log log'.
Proof. exact default_indirect_proof. Qed.
Print Assumptions C20_default_indirect.

(** Position entropies: all unprotected names are candidates; the total is the sum. *)
Theorem C20_pos_indirect : forall (F : Type) (finish : list nat -> nat -> F) ltb leb add zero big fuel log threshold max u,
  order_laws ltb -> (Z.max 1 max <= Z.of_nat fuel)%Z ->
  exists log', filter_events_pos_entropy_indirect finish ltb leb add zero big fuel log threshold max u = Some (Ok log') /\
    indirect_outcome ltb leb big false
      (fun l => position_entropies_fast_sum finish add zero l None (Some (create_events_positions l)))
      (fun l cands => forall n, In n cands <-> occurs n l) u threshold max log log'.
Proof. exact @pos_indirect_proof. Qed.
Print Assumptions C20_pos_indirect.

(** With fewer than 1/top_percent distinct names (20 by default) there is no candidate: the log comes
    back unchanged, and when its average is above the threshold only after all [max] rounds (10^9
    by default) were made. *)
Theorem C20_small_log_never_filtered : forall laplace q u log threshold max,
  (0 <= q)%Q -> (inject_Z (Z.of_nat (length (distinct_names log))) * q < 1)%Q ->
  no_empty_trace log ->
  (forall fuel r, filter_events_default_entropy_indirect fuel log laplace threshold q max u = Some r -> r = Ok log) /\
  (log <> [] -> (forall s, calculate_default_entropy_average laplace log None = Ok s -> threshold < s)%R ->
   forall fuel, (Z.of_nat fuel < max)%Z ->
   filter_events_default_entropy_indirect fuel log laplace threshold q max u = None).
Proof. exact small_log_proof. Qed.
Print Assumptions C20_small_log_never_filtered.

(** The indirect removal till the end reports every name once, greedily, when nothing is protected
    and every sum is below the bound 1e10. *)
Theorem C20_indirect_till_end : forall (F : Type) (finish : list nat -> nat -> F) ltb add zero big sub kind,
  order_laws ltb ->
  let total := fun l => position_entropies_fast_sum finish add zero l None (Some (create_events_positions l)) in
  (forall l s, total l = Ok s -> ltb s big = true) ->
  forall fuel log rs, no_empty_trace log -> length (distinct_names log) < fuel ->
  exists out, pos_indirect_till_end finish ltb add zero big sub fuel kind (fun _ => false) log rs =
      Some (Ok (rs ++ map (fun x => (Some (fst x), snd x)) out)) /\
    Permutation (map fst out) (distinct_names log) /\
    forall i n v, nth_error out i = Some (n, v) ->
      let l := after (firstn i (map fst out)) log in
      exists before m, total l = Ok before /\ total (without l [n]) = Ok m /\
        v = (match kind with BeforeOnly => before | AfterBeforeDelta => sub before m end) /\
        forall c s, occurs c l -> total (without l [c]) = Ok s -> ltb s m = false.
Proof. exact @pos_till_end_proof. Qed.
Print Assumptions C20_indirect_till_end.

(** With a protected name in the log it never returns. *)
Theorem C20_till_end_protected_never_returns :
  forall (F : Type) (finish : list nat -> nat -> F) ltb add zero big sub kind u log,
  order_laws ltb -> (exists n, occurs n log /\ u n = true) ->
  forall fuel rs, pos_indirect_till_end finish ltb add zero big sub fuel kind u log rs = None.
Proof. exact @pos_till_end_diverges_proof. Qed.
Print Assumptions C20_till_end_protected_never_returns.

(** top_percent above 1 does not mean "all names": the negative slice bound leaves only a few. *)
Theorem C20_top_percent_above_one_refuted : exists d q,
  (1 < q)%Q /\ length d = 20 /\ length (top_entropies (sort_items d) q) = 1.
Proof.
  exists (repeat (str "A", 0%R) 20), (21 # 20)%Q. split; [reflexivity|]. split; [reflexivity|].
  assert (E : sort_items (repeat (str "A", 0%R) 20) = repeat (str "A", 0%R) 20).
  { assert (G : forall k, sort_items (repeat (str "A", 0%R) k) = repeat (str "A", 0%R) k).
    { induction k as [|k IH]; [reflexivity|]. change (sort_items (repeat (str "A", 0%R) (S k))) with (insert_item (str "A", 0%R) (sort_items (repeat (str "A", 0%R) k))).
      rewrite IH. destruct k; [reflexivity|]. cbn [repeat insert_item snd]. destruct (Rle_dec 0 0); [reflexivity|exfalso; lra]. }
    apply G. }
  rewrite E. reflexivity.
Qed.
Print Assumptions C20_top_percent_above_one_refuted.

Example C20_case :
  let log := [[str "A"; str "B"; str "A"]; [str "B"; str "C"]; [str "A"]] in
  filter_events_pos_entropy_indirect (fun v n => list_sum v * n) Nat.ltb Nat.leb Nat.add 0 100 2 log 5 2 (fun n => str_eqb n (str "A"))
    = Some (Ok [[str "A"; str "A"]; [str "A"]]) /\
  pos_indirect_till_end (fun v n => list_sum v * n) Nat.ltb Nat.add 0 100 Nat.sub 4 AfterBeforeDelta (fun _ => false) log []
    = Some (Ok [(Some (str "A"), 12); (Some (str "B"), 5); (Some (str "C"), 1)]).
Proof. cbn zeta. split; vm_compute; reflexivity. Qed.

Example C20_small_case :
  filter_events_default_entropy_indirect 7 [[str "A"; str "B"]; [str "B"]] true (-1)%R (1 # 20)%Q 1000000000 (fun _ => false) = None.
Proof.
  apply C20_small_log_never_filtered.
  - unfold Qle; cbn; lia.
  - vm_compute. reflexivity.
  - intros [H|[H|[]]]; discriminate.
  - discriminate.
  - intros s H. apply laplace_average_nonneg in H; [lra|].
    intros t [<-|[<-|[]]]; cbn; split; intros Hx; intuition discriminate.
  - vm_compute. reflexivity.
Qed.
