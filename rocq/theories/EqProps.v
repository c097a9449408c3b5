(** Property C07: equality and hashes of events, traces and logs. *)
From Verif Require Import Py LogModel HashModel EqModel EqSpec EqProofs.

(** Same content in any insertion order gives equal hashes, and == holds. *)
Theorem C07_equal_content : forall tostr show_ext show_cls tuple_hash,
  (forall e e', same_dict e e' -> event_hash tostr e = event_hash tostr e' /\ event_eq tostr e e' = true) /\
  (forall t t', same_trace t t' -> trace_hash tostr t = trace_hash tostr t' /\ trace_eq tostr t t' = true) /\
  (forall l l', same_log l l' ->
     log_hash tostr show_ext show_cls tuple_hash l = log_hash tostr show_ext show_cls tuple_hash l' /\
     log_eq tostr show_ext show_cls tuple_hash l l' = true).
Proof. exact equal_content_proof. Qed.
Print Assumptions C07_equal_content.

(** Hashes lie in [0, 10^9+7). *)
Theorem C07_hash_range : forall tostr,
  (forall s, (string_poly_hash s < 1000000007)%N) /\ (forall e, (event_hash tostr e < 1000000007)%N) /\
  (forall t, (trace_hash tostr t < 1000000007)%N).
Proof. exact hash_range_proof. Qed.
Print Assumptions C07_hash_range.

Theorem C07_equivalence : forall tostr show_ext show_cls tuple_hash,
  equivalence (event_eq tostr) /\ equivalence (trace_eq tostr) /\ equivalence (log_eq tostr show_ext show_cls tuple_hash).
Proof. exact equivalence_proof. Qed.
Print Assumptions C07_equivalence.

(** Trace attributes and global values never influence equality. *)
Theorem C07_ignored_parts : forall tostr show_ext show_cls tuple_hash,
  (forall es a b, trace_eq tostr (mkTrace es a) (mkTrace es b) = true) /\
  (forall ts a x c p g g', log_eq tostr show_ext show_cls tuple_hash (mkLog ts a x c p g) (mkLog ts a x c p g') = true).
Proof. exact ignored_parts_proof. Qed.
Print Assumptions C07_ignored_parts.

(** str() of the attribute values used in the witnesses. *)
Definition show_plain (v : value) : pystr := match v with VStr s => s | _ => [] end.

(** Equal does not imply same content: different keys and values, for events, traces and logs. *)
Theorem C07_equal_implies_same_refuted :
  (exists e e', is_dict e /\ is_dict e' /\ event_eq show_plain e e' = true /\ ~ same_dict e e') /\
  (exists t t', trace_eq show_plain t t' = true /\ ~ same_trace t t') /\
  (forall show_ext show_cls tuple_hash, exists l l', log_eq show_plain show_ext show_cls tuple_hash l l' = true /\ ~ same_log l l').
Proof.
  set (e := [(str "a", VStr (str "bc"))]). set (e' := [(str "ab", VStr (str "c"))]).
  assert (Hn : ~ same_dict e e') by (intros [_ [_ H]]; specialize (H (str "a")); discriminate).
  split; [|split].
  - exists e, e'. split; [repeat constructor; intros []|]. split; [repeat constructor; intros []|]. split; [reflexivity|exact Hn].
  - exists (trace_of_events [e]), (trace_of_events [e']). split; [reflexivity|]. intros H. inversion H; subst. contradiction.
  - intros. exists (log_of_traces [trace_of_events [e]]), (log_of_traces [trace_of_events [e']]). split; [apply Z.eqb_refl|].
    intros [H _]. inversion H as [|? ? ? ? H1]; subst. inversion H1; subst. contradiction.
Qed.
Print Assumptions C07_equal_implies_same_refuted.

(** Even events differing only in the name may be equal ("aB" and "BC" have the same hash). *)
Theorem C07_name_collision_refuted : exists n n', n <> n' /\
  string_poly_hash n = string_poly_hash n' /\
  string_poly_hash (concept_name ++ n) = string_poly_hash (concept_name ++ n') /\
  event_eq show_plain [(concept_name, VStr n)] [(concept_name, VStr n')] = true.
Proof. exists (str "aB"), (str "BC"). vm_compute. repeat split; discriminate. Qed.
Print Assumptions C07_name_collision_refuted.

(** The value of the hashes: polynomials at 31 modulo 10^9+7. *)
Theorem C07_hash_value :
  (forall s, string_poly_hash s = poly s mod 1000000007)%N /\
  (forall hs, hs <> [] -> collection_poly_hash hs = (1 + poly hs) mod 1000000007)%N /\ collection_poly_hash [] = 0%N.
Proof. exact hash_value_proof. Qed.
Print Assumptions C07_hash_value.

(** Names of one character never collide. *)
Theorem C07_single_characters : forall a b, (a < 1000000006)%N -> (b < 1000000006)%N ->
  string_poly_hash [a] = string_poly_hash [b] -> a = b.
Proof. exact single_char_proof. Qed.
Print Assumptions C07_single_characters.

Example C07_case :
  let e := [(str "concept:name", VStr (str "A")); (str "x", VStr (str "1"))] in
  let e' := [(str "x", VStr (str "1")); (str "concept:name", VStr (str "A"))] in
  same_dict e e' /\ e <> e' /\ event_hash show_plain e = event_hash show_plain e' /\
  event_eq show_plain e [(str "x", VStr (str "2")); (str "concept:name", VStr (str "A"))] = false.
Proof.
  cbn zeta. split; [|split; [discriminate|split; vm_compute; reflexivity]].
  split; [|split].
  - repeat constructor; cbn; intros H; intuition discriminate.
  - repeat constructor; cbn; intros H; intuition discriminate.
  - intros k. cbn [dget]. destruct (str_eq_dec k (str "concept:name")) as [E|E], (str_eq_dec k (str "x")) as [E'|E']; try reflexivity.
    exfalso. rewrite E in E'. discriminate.
Qed.
