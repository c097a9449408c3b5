(** Properties C09, C10, C11, C35: splitting a log by trace variants, merging traces.
    [T] is the type of trace objects, [names t] the sequence of event names of trace t. *)
From Coq Require Import Permutation.
From Verif Require Import Py HashModel SplitModel MutSpec SplitSpec SplitProofs.

Definition demo : list (list pystr) :=
  [[str "a"; str "b"]; [str "c"]; [str "a"; str "b"]; [str "a"; str "c"]; []; [str "d"]; []].

(** C09: the groups partition the traces; each group is non-empty, of equal lengths, in the
    original order. *)
Theorem C09_split_partition : forall (T : Type) (names : T -> list pystr) (log : list T),
  exists groups, split_log_by_traces names log = Ok groups /\
    Permutation (concat groups) log /\
    forall g, In g groups ->
      g <> [] /\
      (forall t u, In t g -> In u g -> length (names t) = length (names u)) /\
      (exists P : T -> Prop, Deleted P log g).
Proof. exact @split_partition_proof. Qed.
Print Assumptions C09_split_partition.

Example C09_case : split_log_by_traces (fun t => t) demo =
  Ok [[[str "a"; str "b"]; [str "a"; str "b"]]; [[str "a"; str "c"]]; [[str "c"]]; [[str "d"]]; [[]; []]].
Proof. vm_compute. reflexivity. Qed.

(** C10: two trace occurrences are in the same group iff their name hash sequences agree. *)
Theorem C10_same_group_iff_same_hashes :
  forall (T : Type) (names : T -> list pystr) (log : list T) groups,
  split_log_by_traces names log = Ok groups ->
  forall i j gi gj t u,
    nth_error groups i = Some gi -> nth_error groups j = Some gj -> In t gi -> In u gj ->
    (i = j <-> map string_poly_hash (names t) = map string_poly_hash (names u)).
Proof. exact @split_same_group_proof. Qed.
Print Assumptions C10_same_group_iff_same_hashes.

(** C10: hence groups are exactly the variants when no two names of the log collide. *)
Theorem C10_same_group_iff_same_variant :
  forall (T : Type) (names : T -> list pystr) (log : list T) groups,
  collision_free_names names log ->
  split_log_by_traces names log = Ok groups ->
  forall i j gi gj t u,
    nth_error groups i = Some gi -> nth_error groups j = Some gj -> In t gi -> In u gj ->
    (i = j <-> names t = names u).
Proof. exact @split_variants_proof. Qed.
Print Assumptions C10_same_group_iff_same_variant.

Example C10_hypothesis_met : collision_free_names (fun t => t) demo.
Proof.
  intros t u n m Ht Hu Hn Hm.
  repeat (destruct Ht as [<-|Ht]; [cbn in Hn|]); try contradiction;
  repeat (destruct Hu as [<-|Hu]; [cbn in Hm|]); try contradiction;
  repeat (destruct Hn as [<-|Hn]); try contradiction;
  repeat (destruct Hm as [<-|Hm]); try contradiction;
  try reflexivity; vm_compute; discriminate.
Qed.

(** C10: without that condition it is false: the one-event traces "aB" and "BC" are different
    variants but end up in one group. *)
Theorem C10_variants_refuted : exists (log : list (list pystr)) g t u,
  split_log_by_traces (fun t => t) log = Ok [g] /\ In t g /\ In u g /\ t <> u.
Proof.
  exists [[str "aB"]; [str "BC"]], [[str "aB"]; [str "BC"]], [str "aB"], [str "BC"].
  vm_compute. intuition congruence.
Qed.
Print Assumptions C10_variants_refuted.

(** C11: the variant filter returns one representative of every variant, taken from the log. *)
Theorem C11_variant_filter : forall (T : Type) (names : T -> list pystr) (log : list T),
  collision_free_names names log ->
  exists reps, filter_traces_by_variants names log = Ok reps /\
    (forall r, In r reps -> In r log) /\
    (forall t, In t log -> exists r, In r reps /\ names r = names t) /\
    NoDup (map names reps).
Proof. exact @variants_proof. Qed.
Print Assumptions C11_variant_filter.

Example C11_case : filter_traces_by_variants (fun t => t) demo =
  Ok [[str "a"; str "b"]; [str "a"; str "c"]; [str "c"]; [str "d"]; []].
Proof. vm_compute. reflexivity. Qed.

(** C11: with colliding names a variant is lost. *)
Theorem C11_variant_filter_refuted : exists (log : list (list pystr)) reps t,
  filter_traces_by_variants (fun t => t) log = Ok reps /\ In t log /\
  forall r, In r reps -> r <> t.
Proof.
  exists [[str "aB"]; [str "BC"]], [[str "aB"]], [str "BC"]. split; [vm_compute; reflexivity|].
  split; [right; left; reflexivity|]. intros r [<-|[]]. vm_compute. discriminate.
Qed.
Print Assumptions C11_variant_filter_refuted.

(** C35: merging gives one trace: all events in order, one separator after each trace; the
    separators are pairwise distinct, and no separator is an event of the log, when the uuid
    source does not repeat itself nor existing events. *)
Theorem C35_merge_all_traces : forall (E : Type) (mk : pystr -> E) log uuids,
  exists seps out,
    merge_all_traces_in_one_log mk log uuids = [out] /\ Merged log seps out /\
    length seps = length log /\
    (forall s, In s seps -> exists j, j < length log /\ s = mk (uuids j)) /\
    ((forall a b, mk a = mk b -> a = b) ->
     (forall i j, i < length log -> j < length log -> uuids i = uuids j -> i = j) -> NoDup seps) /\
    ((forall j e t, j < length log -> In t log -> In e t -> e <> mk (uuids j)) ->
     forall s t, In s seps -> In t log -> ~ In s t).
Proof. exact @merge_proof. Qed.
Print Assumptions C35_merge_all_traces.

Example C35_case :
  merge_all_traces_in_one_log (fun n => n) [[str "a"; str "b"]; []; [str "c"]]
     (fun i => nth i [str "u0"; str "u1"; str "u2"] [])
  = [[str "a"; str "b"; str "u0"; str "u1"; str "c"; str "u2"]].
Proof. vm_compute. reflexivity. Qed.
