(** Properties C12-C15: directly-follows information. *)
From Verif Require Import Py InfoModel InfoSpec InfoProofs.

(** C12: the stored count of (a,b) is the number of times the step a -> b is taken by the walks
    the traces describe; pairs that never occur are not stored, none is stored twice. *)
Theorem C12_pair_counts_exact : forall log ign fake a b,
  dget pair_eq_dec (d_pairs (li_dfg (create_log_information log ign fake))) (a, b) =
  let c := count_occ pair_eq_dec (steps log ign fake) (a, b) in
  if c =? 0 then None else Some c.
Proof. exact pairs_exact_proof. Qed.
Print Assumptions C12_pair_counts_exact.

Theorem C12_keys_exact : forall log ign fake,
  NoDup (dkeys (d_pairs (li_dfg (create_log_information log ign fake)))) /\
  NoDup (dkeys (li_events_count (create_log_information log ign fake))) /\
  (forall n, In n (dkeys (li_events_count (create_log_information log ign fake))) <-> In n (occurrences log ign)) /\
  (forall p, In p (dkeys (d_pairs (li_dfg (create_log_information log ign fake)))) <-> In p (steps log ign fake)).
Proof. exact info_keys_proof. Qed.
Print Assumptions C12_keys_exact.

(** C13: conservation of flow. *)
Theorem C13_conservation : forall log ign a,
  let info := create_log_information log ign true in
  (a <> str "FAKE_START" ->
     list_sum (map snd (filter (fun kv => eqs a (fst (fst kv))) (d_pairs (li_dfg info)))) =
     count_occ str_eq_dec (occurrences log ign) a) /\
  (a <> str "FAKE_END" ->
     list_sum (map snd (filter (fun kv => eqs a (snd (fst kv))) (d_pairs (li_dfg info)))) =
     count_occ str_eq_dec (occurrences log ign) a).
Proof. exact conservation_proof. Qed.
Print Assumptions C13_conservation.

Theorem C13_fake_totals : forall log ign,
  (forall t, In t log -> ~ In (str "FAKE_START") t /\ ~ In (str "FAKE_END") t) ->
  let info := create_log_information log ign true in
  list_sum (map snd (filter (fun kv => eqs (str "FAKE_START") (fst (fst kv))) (d_pairs (li_dfg info)))) =
  how_many (fun t => match kept ign t with [] => false | _ => true end) log /\
  list_sum (map snd (filter (fun kv => eqs (str "FAKE_END") (snd (fst kv))) (d_pairs (li_dfg info)))) =
  how_many (fun t => match kept ign t with [] => false | _ => true end) log.
Proof. exact fake_totals_proof. Qed.
Print Assumptions C13_fake_totals.

(** Example: "ABA", "", "CB" with C ignored; the hypothesis of C13_fake_totals holds and the two
    totals are 2 (the empty trace does not contribute). *)
Definition ex_log : names_log := [[str "A"; str "B"; str "A"]; []; [str "C"; str "B"]].
Example C13_fake_totals_case :
  (forall t, In t ex_log -> ~ In (str "FAKE_START") t /\ ~ In (str "FAKE_END") t) /\
  how_many (fun t => match kept (Some [str "C"]) t with [] => false | _ => true end) ex_log = 2 /\
  dget pair_eq_dec (d_pairs (li_dfg (create_log_information ex_log (Some [str "C"]) true)))
       (str "FAKE_START", str "B") = Some 1 /\
  dget pair_eq_dec (d_pairs (li_dfg (create_log_information ex_log (Some [str "C"]) true)))
       (str "A", str "B") = Some 1.
Proof.
  split; [|vm_compute; auto]. intros t Ht. cbn in Ht.
  destruct Ht as [<-|[<-|[<-|[]]]]; split; cbn; intuition discriminate.
Qed.

(** A log which itself uses the name FAKE_START breaks the first total: the hypothesis is needed. *)
Theorem C13_fake_totals_unguarded_refuted : exists log ign,
  let info := create_log_information log ign true in
  list_sum (map snd (filter (fun kv => eqs (str "FAKE_START") (fst (fst kv))) (d_pairs (li_dfg info)))) <>
  how_many (fun t => match kept ign t with [] => false | _ => true end) log.
Proof. exists [[str "FAKE_START"; str "A"]], None. vm_compute. discriminate. Qed.
Print Assumptions C13_fake_totals_unguarded_refuted.

(** C14: event counts. *)
Theorem C14_event_counts_exact : forall log ign fake n,
  dget str_eq_dec (li_events_count (create_log_information log ign fake)) n =
  let c := count_occ str_eq_dec (occurrences log ign) n in
  if c =? 0 then None else Some c.
Proof. exact events_exact_proof. Qed.
Print Assumptions C14_event_counts_exact.

Theorem C14_followers_exact : forall log ign fake,
  let g := li_dfg (create_log_information log ign fake) in
  (forall a b, match dget str_eq_dec (d_followed g) a with
               | Some m => dget str_eq_dec m b | None => None end
               = dget pair_eq_dec (d_pairs g) (a, b)) /\
  (forall a, In a (dkeys (d_followed g)) <-> exists b, In (a, b) (steps log ign fake)) /\
  (forall a, In a (d_single g) <->
     exists b, In (a, b) (steps log ign fake) /\
               forall b', In (a, b') (steps log ign fake) -> b' = b).
Proof. exact dfg_followers_proof. Qed.
Print Assumptions C14_followers_exact.

Theorem C14_per_trace_counts : forall log,
  Forall2 (fun t tc => tc_overall tc = length t /\
             (forall n, dget str_eq_dec (tc_counts tc) n =
                        let c := count_occ str_eq_dec t n in if c =? 0 then None else Some c))
          log (calculate_events_in_each_trace log).
Proof. exact trace_counts_proof. Qed.
Print Assumptions C14_per_trace_counts.

Theorem C14_total_count : forall (E : Type) (log : list (list E)),
  calculate_events_count log = length (concat log).
Proof. exact @events_count_total_proof. Qed.
Print Assumptions C14_total_count.

Example C14_case :
  let g := create_dfg [[str "A"; str "B"; str "A"; str "C"]; [str "B"; str "A"]] in
  d_single g = [str "B"] /\ dget pair_eq_dec (d_pairs g) (str "B", str "A") = Some 2.
Proof. vm_compute. auto. Qed.

(** C15: universal quantification per name. *)
Theorem C15_find_all_events_names : forall (E : Type) (name : E -> pystr) (predicate : E -> bool) log n,
  In n (find_all_events_names name predicate log) <->
  (exists t e, In t log /\ In e t /\ name e = n) /\
  (forall t e, In t log -> In e t -> name e = n -> predicate e = true).
Proof. exact @find_names_proof. Qed.
Print Assumptions C15_find_all_events_names.

Example C15_case :
  find_all_events_names fst snd
    [[(str "A", true); (str "B", true)]; [(str "A", false); (str "A", true); (str "C", true)]]
  = [str "B"; str "C"].
Proof. reflexivity. Qed.
