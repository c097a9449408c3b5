(** Properties C16, C17: follow/precede ratios and entropies (exact real arithmetic). *)
From Coq Require Import Reals Lra.
From Verif Require Import Py InfoModel InfoSpec EntropyModel EntropySpec EntropyProofs.
Open Scope R_scope.

(** C16: the vectors of follow and precede ratios of an occurring event are distributions. *)
Theorem C16_default_ratios_distribution : forall log ign e,
  fake_free log -> In e (occurrences log ign) ->
  let info := create_log_information log ign true in
  let names := dkeys (li_events_count info) in
  exists v w,
    mapM (fun x => default_dfr e x info) (names ++ [str "FAKE_END"]) = Ok v /\
    mapM (fun x => default_dpr e x info) (names ++ [str "FAKE_START"]) = Ok w /\
    distribution v /\ distribution w.
Proof. exact default_ratios_proof. Qed.
Print Assumptions C16_default_ratios_distribution.

Theorem C16_laplace_ratios_distribution : forall log ign e,
  fake_free log -> In e (occurrences log ign) ->
  let info := create_log_information log ign true in
  let names := dkeys (li_events_count info) in
  exists v w,
    mapM (fun x => laplace_dfr e x info) (names ++ [str "FAKE_END"]) = Ok v /\
    mapM (fun x => laplace_dpr e x info) (names ++ [str "FAKE_START"]) = Ok w /\
    distribution v /\ distribution w /\
    Forall (fun p => 0 < p < 1) v /\ Forall (fun p => 0 < p < 1) w.
Proof. exact laplace_ratios_proof. Qed.
Print Assumptions C16_laplace_ratios_distribution.

(** The hypotheses are met by a log with branching, an empty trace and an ignored name. *)
Example C16_case :
  let log := [[str "A"; str "B"]; []; [str "A"; str "C"; str "X"]] in
  fake_free log /\ In (str "A") (occurrences log (Some [str "X"])).
Proof.
  split; [|vm_compute; auto]. intros t Ht. cbn in Ht.
  destruct Ht as [<-|[<-|[<-|[]]]]; split; cbn; intuition discriminate.
Qed.

(** C17: the default entropy is defined for exactly the occurring names, lies between 0 and
    2*log2(names + 1), and is 0 iff follower and predecessor are always the same. *)
Theorem C17_default_entropy : forall log ign,
  fake_free log ->
  exists d, calculate_default_entropies log ign = Ok d /\
    NoDup (dkeys d) /\ (forall n, In n (dkeys d) <-> In n (occurrences log ign)) /\
    forall n h, In (n, h) d ->
      0 <= h <= 2 * (ln (INR (length d + 1)) / ln 2) /\
      (h = 0 <-> (exists b, forall b', In (n, b') (steps log ign true) -> b' = b) /\
                 (exists a, forall a', In (a', n) (steps log ign true) -> a' = a)).
Proof. exact default_entropy_proof. Qed.
Print Assumptions C17_default_entropy.

(** With Laplace smoothing the entropy is never 0, not even for a fully deterministic event. *)
Theorem C17_laplace_entropy : forall log ign,
  fake_free log ->
  exists d, calculate_laplace_entropies log ign = Ok d /\
    NoDup (dkeys d) /\ (forall n, In n (dkeys d) <-> In n (occurrences log ign)) /\
    forall n h, In (n, h) d -> 0 < h <= 2 * (ln (INR (length d + 1)) / ln 2).
Proof. exact laplace_entropy_proof. Qed.
Print Assumptions C17_laplace_entropy.

(** Both directions of the zero case occur: in "AB","AB" the event A is deterministic, in
    "AB","AC" it is not. *)
Example C17_deterministic_case :
  let log := [[str "A"; str "B"]; [str "A"; str "B"]] in
  (forall b', In (str "A", b') (steps log None true) -> b' = str "B") /\
  (forall a', In (a', str "A") (steps log None true) -> a' = str "FAKE_START").
Proof. split; intros x H; vm_compute in H; repeat (destruct H as [H|H]; [try discriminate H; injection H as <-; reflexivity|]); destruct H. Qed.
Example C17_branching_case :
  let log := [[str "A"; str "B"]; [str "A"; str "C"]] in
  ~ exists b, forall b', In (str "A", b') (steps log None true) -> b' = b.
Proof.
  intros log [b Hb]. assert (H1 := Hb (str "B")). assert (H2 := Hb (str "C")).
  assert (E : str "B" = str "C"); [|discriminate E]. rewrite H1, H2; [reflexivity|vm_compute; tauto|vm_compute; tauto].
Qed.

(** The value itself: Shannon entropy of the follower frequencies plus that of the predecessor
    frequencies (no condition on the log). *)
Theorem C17_default_entropy_formula : forall log ign,
  exists d, calculate_default_entropies log ign = Ok d /\
    forall n h, In (n, h) d ->
      h = shannon (map (fun b => INR (count_occ pair_eq_dec (steps log ign true) (n, b)) /
                                 INR (count_occ str_eq_dec (occurrences log ign) n))
                       (dkeys d ++ [str "FAKE_END"])) +
          shannon (map (fun a => INR (count_occ pair_eq_dec (steps log ign true) (a, n)) /
                                 INR (count_occ str_eq_dec (occurrences log ign) n))
                       (dkeys d ++ [str "FAKE_START"])).
Proof. exact default_formula_proof. Qed.
Print Assumptions C17_default_entropy_formula.

Theorem C17_laplace_entropy_formula : forall log ign,
  exists d, calculate_laplace_entropies log ign = Ok d /\
    forall n h, In (n, h) d ->
      let c := INR (count_occ str_eq_dec (occurrences log ign) n) in
      let smooth := fun k : nat => (1 / c + INR k) / (1 / c * INR (length d + 1) + c) in
      h = shannon (map (fun b => smooth (count_occ pair_eq_dec (steps log ign true) (n, b)))
                       (dkeys d ++ [str "FAKE_END"])) +
          shannon (map (fun a => smooth (count_occ pair_eq_dec (steps log ign true) (a, n)))
                       (dkeys d ++ [str "FAKE_START"])).
Proof. exact laplace_formula_proof. Qed.
Print Assumptions C17_laplace_entropy_formula.

(** Sum and average of the entropies: the average is the sum divided by the number of names, 0 for
    a log without names, and obeys the same bounds as the single entropies. *)
Theorem C17_sum_and_average : forall laplace log ign, fake_free log ->
  exists d s a, calculate_laplace_or_default_entropies laplace log ign = Ok d /\
    calculate_default_entropy_sum laplace log ign = Ok s /\ calculate_default_entropy_average laplace log ign = Ok a /\
    s = total (map snd d) /\ a * INR (length d) = s /\ (d = [] -> a = 0) /\ 0 <= a <= 2 * (ln (INR (length d + 1)) / ln 2).
Proof. exact average_proof. Qed.
Print Assumptions C17_sum_and_average.
