(** C87, C88: entropies of the events of a log in the backend. *)
From Coq Require Import Permutation Reals Lra.
From Verif Require Import Py PyFacts InfoModel InfoSpec ReplayModel PosModel PosSpec EntropyModel EntropySpec
  RInfoModel RInfoSpec REntModel REntProofs REntProofs2.
Open Scope nat_scope.

Definition e_log : names_log := [[str "A"; str "X"; str "B"; str "A"]; []; [str "X"; str "X"]; [str "X"; str "A"; str "C"]].
Definition forwards : nat -> forall A : Type, list A -> list A := fun _ _ l => l.
Definition reversed : nat -> forall A : Type, list A -> list A := fun _ A l => rev l.
Lemma forwards_any : any_order forwards.
Proof. intros k A l. apply Permutation_refl. Qed.
Lemma reversed_any : any_order reversed.
Proof. intros k A l. apply Permutation_sym, Permutation_rev. Qed.

(** Both functions hand the same vector to the last step: for each position the number of traces with the event there after
    ignored events are dropped; and the number of traces in which something is left.  Nothing panics. *)
Theorem C87_fast_equals_slow : forall ord, any_order ord -> forall (F : Type) (finish : list nat -> nat -> F) log e ign,
  (log <> [] \/ ign <> None) ->
  match ign with None => True | Some set => NoDup set /\ ~ In e set end ->
  r_pos_entropy_fast ord finish log e ign = Ok (finish (position_counts log ign e) (non_empty_traces log ign)) /\
  r_pos_entropy_slow ord finish log e ign = Ok (finish (position_counts log ign e) (non_empty_traces log ign)).
Proof. intros ord O F finish log e ign H V. apply r_pos_proof; [exact O|exact H| |]; destruct ign; cbn; tauto. Qed.
Print Assumptions C87_fast_equals_slow.

Example C87_case : let ign := Some [str "X"; str "Y"] in
  NoDup [str "X"; str "Y"] /\ ~ In (str "A") [str "X"; str "Y"] /\
  position_counts e_log ign (str "A") = [2; 0; 1] /\ non_empty_traces e_log ign = 2 /\
  r_pos_entropy_fast reversed pair e_log (str "A") ign = Ok ([2; 0; 1], 2) /\
  r_pos_entropy_slow forwards pair e_log (str "A") ign = Ok ([2; 0; 1], 2).
Proof.
  cbv zeta. split; [|split].
  - repeat constructor; vm_compute; intuition discriminate.
  - vm_compute; intuition discriminate.
  - repeat split.
Qed.

(** For an ignored event they differ: one still counts where it was. *)
Theorem C87_ignored_event_refuted : exists log e set, log <> [] /\ NoDup set /\
  r_pos_entropy_fast forwards pair log e (Some set) <> r_pos_entropy_slow forwards pair log e (Some set).
Proof.
  exists [[str "A"; str "B"]], (str "A"), [str "A"]. split; [discriminate|]. split; [repeat constructor; intros []|]. vm_compute. discriminate.
Qed.
Print Assumptions C87_ignored_event_refuted.
(** Even a panic is possible, where the other function answers. *)
Theorem C87_ignored_event_panics : exists log e set, log <> [] /\ NoDup set /\
  r_pos_entropy_fast forwards pair log e (Some set) = rpanic /\ exists x, r_pos_entropy_slow forwards pair log e (Some set) = Ok x.
Proof.
  exists [[str "B"; str "A"]], (str "A"), [str "A"]. split; [discriminate|]. split; [repeat constructor; intros []|].
  split; [vm_compute; reflexivity|]. eexists. vm_compute. reflexivity.
Qed.
Print Assumptions C87_ignored_event_panics.
(** Without traces and without a set the functions for one event panic, with a set they do not. *)
Theorem C87_empty_log_panics : forall ord (F : Type) (finish : list nat -> nat -> F) e,
  r_pos_entropy_fast ord finish [] e None = rpanic /\ r_pos_entropy_slow ord finish [] e None = rpanic.
Proof. intros. split; reflexivity. Qed.
Print Assumptions C87_empty_log_panics.

(** The functions for all events: the same table, one entry for each event which is not ignored; no log makes them panic. *)
Theorem C87_tables : forall ord, any_order ord -> forall (F : Type) (finish : list nat -> nat -> F) log ign,
  match ign with None => True | Some set => NoDup set end ->
  exists d, r_pos_entropies_fast ord finish log ign = Ok d /\ r_pos_entropies ord finish log ign = Ok d /\
    NoDup (dkeys d) /\ (forall n, In n (dkeys d) <-> In n (occurrences log ign)) /\
    forall n x, In (n, x) d -> x = finish (position_counts log ign n) (non_empty_traces log ign).
Proof. intros ord O F finish log ign V. apply r_pos_tables_proof; assumption. Qed.
Print Assumptions C87_tables.

Example C87_tables_case :
  r_pos_entropies_fast reversed pair e_log (Some [str "X"]) =
  Ok [(str "C", ([0; 1; 0], 2)); (str "B", ([0; 1; 0], 2)); (str "A", ([2; 0; 1], 2))] /\
  r_pos_entropies reversed pair [] None = Ok [].
Proof. split; vm_compute; reflexivity. Qed.

(** The Python library makes the same table. *)
Theorem C87_same_as_library : forall ord, any_order ord -> forall (F : Type) (finish : list nat -> nat -> F) log ign cached,
  match ign with None => True | Some set => NoDup set end ->
  (cached = None \/ cached = Some (create_events_positions log)) ->
  let ig := option_map (fun set => mkIgn set (calculate_events_in_each_trace log)) ign in
  exists d d', r_pos_entropies_fast ord finish log ign = Ok d /\ position_entropies_fast finish log ig cached = Ok d' /\ Permutation d d'.
Proof. intros ord O F finish log ign cached V H. apply r_same_as_library; assumption. Qed.
Print Assumptions C87_same_as_library.

(** With two traces or more the entropies lie between 0, where each position has the event in no trace or in all, and 1, where
    no position has it in two traces. *)
Theorem C87_range : forall ord, any_order ord -> forall log ign,
  match ign with None => True | Some set => NoDup set end -> 2 <= non_empty_traces log ign ->
  exists d, r_pos_entropies_fast ord r_pos_entropy log ign = Ok d /\ (forall n, In n (dkeys d) <-> In n (occurrences log ign)) /\
    forall n x, In (n, x) d -> (0 <= x <= 1)%R /\
      (x = 0%R <-> forall j, traces_with_at log ign n j = 0 \/ traces_with_at log ign n j = non_empty_traces log ign) /\
      (x = 1%R <-> forall j, traces_with_at log ign n j <= 1).
Proof. intros ord O log ign V H. apply r_pos_range_proof; assumption. Qed.
Print Assumptions C87_range.

(** A log with an event at both ends of the range and one in between: the third says how the value between is reached. *)
Example C87_range_case : let log := [[str "A"; str "B"]; [str "A"; str "C"; str "B"]] in
  non_empty_traces log None = 2 /\ (forall j, traces_with_at log None (str "A") j = 0 \/ traces_with_at log None (str "A") j = 2) /\
  (forall j, traces_with_at log None (str "B") j <= 1) /\ r_pos_entropy [2; 1] 2 = (1 / 2)%R.
Proof.
  cbv zeta. split; [reflexivity|]. split; [|split].
  - intros [|[|[|[|j]]]]; vm_compute; auto.
  - intros [|[|[|[|j]]]]; vm_compute; auto.
  - rewrite r_pos_entropy_eq by lia. cbn [filter Nat.eqb negb map length].
    unfold total. cbn [fold_right]. rewrite !term_eq by lia. pose proof ln2_pos. cbn [INR]. replace (1 + 1)%R with 2%R by lra. rewrite ln_1. field. lra.
Qed.

(** The entropies of the directly follows relation, without and with smoothing: one entry for each event, from the counts of the log. *)
Theorem C88_default : forall ord, any_order ord -> forall log ign,
  let d := r_default_dfg_entropy ord log ign in
  NoDup (dkeys d) /\ (forall n, In n (dkeys d) <-> In n (occurrences log ign)) /\
  forall n h, In (n, h) d ->
    let c := INR (count_occ str_eq_dec (occurrences log ign) n) in
    h = (shannon (map (fun b => INR (count_occ pair_eq_dec (steps log ign true) (n, b)) / c) (dkeys d ++ [str "FAKE_END"])) +
         shannon (map (fun a => INR (count_occ pair_eq_dec (steps log ign true) (a, n)) / c) (dkeys d ++ [str "FAKE_START"])))%R.
Proof. intros ord O log ign. apply r_default_formula, O. Qed.
Print Assumptions C88_default.
Theorem C88_laplace : forall ord, any_order ord -> forall log ign,
  let d := r_laplace_dfg_entropy ord log ign in
  NoDup (dkeys d) /\ (forall n, In n (dkeys d) <-> In n (occurrences log ign)) /\
  forall n h, In (n, h) d ->
    let c := INR (count_occ str_eq_dec (occurrences log ign) n) in
    let smooth := fun k : nat => ((1 / c + INR k) / (1 / c * INR (length d + 1) + c))%R in
    h = (shannon (map (fun b => smooth (count_occ pair_eq_dec (steps log ign true) (n, b))) (dkeys d ++ [str "FAKE_END"])) +
         shannon (map (fun a => smooth (count_occ pair_eq_dec (steps log ign true) (a, n))) (dkeys d ++ [str "FAKE_START"])))%R.
Proof. intros ord O log ign. apply r_laplace_formula, O. Qed.
Print Assumptions C88_laplace.

(** The same entries as in the Python library, in any order of the tables. *)
Theorem C88_same_as_library : forall ord, any_order ord -> forall log ign,
  (exists d, calculate_default_entropies log ign = Ok d /\ Permutation (r_default_dfg_entropy ord log ign) d) /\
  (exists d, calculate_laplace_entropies log ign = Ok d /\ Permutation (r_laplace_dfg_entropy ord log ign) d).
Proof. intros ord O log ign. split; [apply r_default_proof, O|apply r_laplace_proof, O]. Qed.
Print Assumptions C88_same_as_library.

(** Bounds: without smoothing 0 says that one event follows always and one precedes always; with smoothing 0 is not reached. *)
Theorem C88_bounds : forall ord, any_order ord -> forall log ign, fake_free log ->
  (forall n h, In (n, h) (r_default_dfg_entropy ord log ign) ->
     (0 <= h <= 2 * (ln (INR (length (r_default_dfg_entropy ord log ign) + 1)) / ln 2))%R /\
     (h = 0%R <-> (exists b, forall b', In (n, b') (steps log ign true) -> b' = b) /\
                  (exists a, forall a', In (a', n) (steps log ign true) -> a' = a))) /\
  (forall n h, In (n, h) (r_laplace_dfg_entropy ord log ign) ->
     (0 < h <= 2 * (ln (INR (length (r_laplace_dfg_entropy ord log ign) + 1)) / ln 2))%R).
Proof. intros ord O log ign F. apply r_dfg_bounds; assumption. Qed.
Print Assumptions C88_bounds.

Example C88_case : let ign := Some [str "X"] in
  fake_free e_log /\ dkeys (r_default_dfg_entropy reversed e_log ign) = [str "C"; str "B"; str "A"] /\
  (forall b, In (str "B", b) (steps e_log ign true) -> b = str "A") /\
  In (str "A", str "B") (steps e_log ign true) /\ In (str "A", str "C") (steps e_log ign true).
Proof.
  cbv zeta. split; [|split; [reflexivity|split; [|split]]].
  - intros t Ht. unfold e_log in Ht. repeat (destruct Ht as [<-|Ht]; [split; vm_compute; intuition discriminate|]). destruct Ht.
  - intros b H. vm_compute in H. repeat (destruct H as [H|H]; [try discriminate H; injection H as <-; reflexivity|]). destruct H.
  - vm_compute. tauto.
  - vm_compute. tauto.
Qed.
