From Coq Require Import Permutation Sorted.
From Verif Require Import Py PyFacts LogModel HashModel EqModel EqSpec.

Lemma str_leb_refl a : str_leb a a = true.
Proof. induction a as [|x a IH]; cbn; [reflexivity|]. rewrite N.ltb_irrefl, N.eqb_refl. exact IH. Qed.

Lemma str_leb_total a b : str_leb a b = true \/ str_leb b a = true.
Proof.
  revert b; induction a as [|x a IH]; intros [|y b]; cbn; auto.
  destruct (N.ltb_spec x y), (N.ltb_spec y x), (N.eqb_spec x y), (N.eqb_spec y x); auto; lia.
Qed.

Lemma str_leb_antisym a b : str_leb a b = true -> str_leb b a = true -> a = b.
Proof.
  revert b; induction a as [|x a IH]; intros [|y b]; cbn; auto; try discriminate.
  destruct (N.ltb_spec x y), (N.ltb_spec y x), (N.eqb_spec x y), (N.eqb_spec y x); intros H1 H2; try discriminate; try lia.
  f_equal; [assumption|apply IH; assumption].
Qed.

Lemma str_leb_trans a b c : str_leb a b = true -> str_leb b c = true -> str_leb a c = true.
Proof.
  revert b c; induction a as [|x a IH]; intros [|y b] [|z c]; cbn; auto; try discriminate.
  destruct (N.ltb_spec x y), (N.ltb_spec y z), (N.ltb_spec x z), (N.eqb_spec x y), (N.eqb_spec y z), (N.eqb_spec x z);
    intros H1' H2'; try discriminate; try reflexivity; try lia. eapply IH; eassumption.
Qed.

Lemma insert_str_perm x l : Permutation (x :: l) (insert_str x l).
Proof. induction l as [|y l IH]; cbn; [reflexivity|]. destruct (str_leb x y); [reflexivity|]. rewrite perm_swap. constructor. exact IH. Qed.
Lemma sort_strs_perm l : Permutation l (sort_strs l).
Proof. induction l as [|y l IH]; cbn; [reflexivity|]. rewrite <- insert_str_perm. constructor. exact IH. Qed.
Lemma insert_str_sorted x l : StronglySorted (fun a b => str_leb a b = true) l -> StronglySorted (fun a b => str_leb a b = true) (insert_str x l).
Proof.
  induction 1 as [|y l H IH F]; cbn; [repeat constructor|]. destruct (str_leb x y) eqn:E.
  - constructor; [constructor; assumption|]. constructor; [exact E|]. eapply Forall_impl; [|exact F]. cbn; intros z Hz. eapply str_leb_trans; eassumption.
  - constructor; [exact IH|]. rewrite Forall_forall in *. intros z Hz.
    eapply Permutation_in in Hz; [|symmetry; apply insert_str_perm]. destruct Hz as [<-|Hz]; [|apply F; exact Hz].
    destruct (str_leb_total x y); congruence.
Qed.
Lemma sort_strs_sorted l : StronglySorted (fun a b => str_leb a b = true) (sort_strs l).
Proof. induction l as [|y l IH]; cbn; [constructor|]. apply insert_str_sorted, IH. Qed.

Lemma sorted_unique l1 : forall l2, StronglySorted (fun a b => str_leb a b = true) l1 -> StronglySorted (fun a b => str_leb a b = true) l2 -> Permutation l1 l2 -> l1 = l2.
Proof.
  induction l1 as [|x l1 IH]; intros l2 H1 H2 P.
  - apply Permutation_nil in P. congruence.
  - destruct l2 as [|y l2]; [symmetry in P; apply Permutation_nil in P; discriminate|].
    inversion H1 as [|? ? S1 F1]; subst. inversion H2 as [|? ? S2 F2]; subst.
    assert (x = y).
    { rewrite Forall_forall in F1, F2. apply str_leb_antisym.
      - assert (Hy : In y (x :: l1)) by (eapply Permutation_in; [symmetry; exact P|left; reflexivity]).
        destruct Hy as [->|Hy]; [apply str_leb_refl|apply F1; exact Hy].
      - assert (Hx : In x (y :: l2)) by (eapply Permutation_in; [exact P|left; reflexivity]).
        destruct Hx as [->|Hx]; [apply str_leb_refl|apply F2; exact Hx]. }
    subst y. f_equal. apply IH; [exact S1|exact S2|]. eapply Permutation_cons_inv; exact P.
Qed.

Lemma sort_strs_perm_eq l1 l2 : Permutation l1 l2 -> sort_strs l1 = sort_strs l2.
Proof.
  intros P. apply sorted_unique; try apply sort_strs_sorted. rewrite <- (sort_strs_perm l1), <- (sort_strs_perm l2). exact P.
Qed.

Lemma dict_hash_perm {V} (tostr : V -> pystr) d d' : Permutation d d' -> dict_hash tostr d = dict_hash tostr d'.
Proof. intros P. unfold dict_hash. do 2 f_equal. apply sort_strs_perm_eq. apply Permutation_map. exact P. Qed.

Lemma same_dict_perm {V} (d d' : dict pystr V) : same_dict d d' -> Permutation d d'.
Proof.
  intros [H1 [H2 H]]. apply NoDup_Permutation.
  - eapply NoDup_map_inv. exact H1.
  - eapply NoDup_map_inv. exact H2.
  - intros [k v]. split; intros Hin; apply (In_dget str_eq_dec) in Hin; try assumption; apply (dget_In str_eq_dec); [rewrite <- H|rewrite H]; exact Hin.
Qed.

Lemma dict_hash_same {V} (tostr : V -> pystr) d d' : same_dict d d' -> dict_hash tostr d = dict_hash tostr d'.
Proof. intros H. apply dict_hash_perm, same_dict_perm, H. Qed.

Lemma Forall2_map_eq {A B} (R : A -> A -> Prop) (f : A -> B) l l' : (forall a b, R a b -> f a = f b) -> Forall2 R l l' -> map f l = map f l'.
Proof. intros H. induction 1 as [|a b l l' Hab _ IH]; [reflexivity|]. cbn. rewrite IH. f_equal. apply H, Hab. Qed.

Lemma trace_hash_same tostr t t' : same_trace t t' -> trace_hash tostr t = trace_hash tostr t'.
Proof. intros H. unfold trace_hash. f_equal. eapply Forall2_map_eq; [|exact H]. intros a b Hab. apply dict_hash_same, Hab. Qed.

Lemma equal_content_proof tostr show_ext show_cls tuple_hash :
  (forall e e', same_dict e e' -> event_hash tostr e = event_hash tostr e' /\ event_eq tostr e e' = true) /\
  (forall t t', same_trace t t' -> trace_hash tostr t = trace_hash tostr t' /\ trace_eq tostr t t' = true) /\
  (forall l l', same_log l l' ->
     log_hash tostr show_ext show_cls tuple_hash l = log_hash tostr show_ext show_cls tuple_hash l' /\
     log_eq tostr show_ext show_cls tuple_hash l l' = true).
Proof.
  split; [|split].
  - intros e e' H. assert (E : event_hash tostr e = event_hash tostr e') by (apply dict_hash_same; exact H).
    split; [exact E|]. unfold event_eq. rewrite E. apply N.eqb_refl.
  - intros t t' H. assert (E := trace_hash_same tostr t t' H). split; [exact E|]. unfold trace_eq. rewrite E. apply N.eqb_refl.
  - intros l l' [H1 [H2 [H3 [H4 H5]]]].
    assert (E : log_hash tostr show_ext show_cls tuple_hash l = log_hash tostr show_ext show_cls tuple_hash l').
    { unfold log_hash. rewrite (dict_hash_same _ _ _ H2), (dict_hash_same _ _ _ H3), (dict_hash_same _ _ _ H4), (dict_hash_same _ _ _ H5).
      do 5 f_equal. eapply Forall2_map_eq; [|exact H1]. intros a b Hab. rewrite (trace_hash_same tostr a b Hab). reflexivity. }
    split; [exact E|]. unfold log_eq. rewrite E. apply Z.eqb_refl.
Qed.

Lemma fold_hash_lt hs st : (fst st < modulus)%N -> (fst (fold_left hash_step hs st) < modulus)%N.
Proof.
  revert st; induction hs as [|h hs IH]; intros [a b] H; [exact H|]. cbn [fold_left]. apply IH. unfold hash_step. cbn [fst].
  apply N.mod_lt. discriminate.
Qed.

Lemma hash_range_proof tostr :
  (forall s, (string_poly_hash s < modulus)%N) /\ (forall e, (event_hash tostr e < modulus)%N) /\
  (forall t, (trace_hash tostr t < modulus)%N).
Proof.
  assert (C : forall hs, (collection_poly_hash hs < modulus)%N).
  { intros [|h hs]; [reflexivity|]. unfold collection_poly_hash. apply fold_hash_lt. reflexivity. }
  split; [intros s; apply fold_hash_lt; reflexivity|]. split; intros; apply C.
Qed.

Definition equivalence {A} (eqb : A -> A -> bool) : Prop :=
  (forall a, eqb a a = true) /\ (forall a b, eqb a b = true -> eqb b a = true) /\
  (forall a b c, eqb a b = true -> eqb b c = true -> eqb a c = true).

Lemma equivalence_proof tostr show_ext show_cls tuple_hash :
  equivalence (event_eq tostr) /\ equivalence (trace_eq tostr) /\ equivalence (log_eq tostr show_ext show_cls tuple_hash).
Proof.
  unfold event_eq, trace_eq, log_eq. repeat split; intros *; rewrite ?N.eqb_eq, ?Z.eqb_eq; congruence.
Qed.

Lemma ignored_parts_proof tostr show_ext show_cls tuple_hash :
  (forall es a b, trace_eq tostr (mkTrace es a) (mkTrace es b) = true) /\
  (forall ts a x c p g g', log_eq tostr show_ext show_cls tuple_hash (mkLog ts a x c p g) (mkLog ts a x c p g') = true).
Proof. split; intros; [apply N.eqb_refl|apply Z.eqb_refl]. Qed.

(** Single-character names never collide. *)
Lemma single_char_proof a b : (a < modulus - 1)%N -> (b < modulus - 1)%N ->
  string_poly_hash [a] = string_poly_hash [b] -> a = b.
Proof.
  unfold string_poly_hash. cbn [fold_left hash_step fst]. unfold modulus. intros Ha Hb. rewrite !N.mul_1_r, !N.add_0_l, !N.mod_small by lia. lia.
Qed.

Lemma hash_fold l : forall h pp q, (pp = q mod modulus -> fst (fold_left hash_step l (h mod modulus, pp)) = (h + q * poly l) mod modulus)%N.
Proof.
  assert (Hm : modulus <> 0%N) by discriminate.
  induction l as [|c l IH]; intros h pp q ->; [cbn; rewrite N.mul_0_r, N.add_0_r; reflexivity|].
  cbn [fold_left]. change (hash_step (h mod modulus, q mod modulus)%N c) with (((h mod modulus + (1 + c) * (q mod modulus)) mod modulus)%N, ((q mod modulus * base) mod modulus)%N).
  rewrite N.add_mod_idemp_l by exact Hm. replace ((h + (1 + c) * (q mod modulus)) mod modulus)%N with ((h + (1 + c) * q) mod modulus)%N.
  - rewrite (IH _ _ (q * base)%N).
    + f_equal. cbn [poly fold_right]. change (fold_right (fun c r => (1 + c + 31 * r)%N) 0%N l) with (poly l). unfold base. lia.
    + rewrite N.mul_mod_idemp_l by exact Hm. reflexivity.
  - rewrite <- (N.add_mod_idemp_r h ((1 + c) * (q mod modulus))) by exact Hm. rewrite N.mul_mod_idemp_r by exact Hm. rewrite N.add_mod_idemp_r by exact Hm. reflexivity.
Qed.
Lemma hash_value_proof :
  (forall s, string_poly_hash s = poly s mod 1000000007)%N /\
  (forall hs, hs <> [] -> collection_poly_hash hs = (1 + poly hs) mod 1000000007)%N /\ collection_poly_hash [] = 0%N.
Proof.
  split; [|split; [|reflexivity]].
  - intros s. unfold string_poly_hash. pose proof (hash_fold s 0 1 1 eq_refl) as H. change (0 mod modulus)%N with 0%N in H. rewrite H. f_equal. lia.
  - intros [|h hs] Hne; [congruence|]. unfold collection_poly_hash. pose proof (hash_fold (h :: hs) 1 1 1 eq_refl) as H. change (1 mod modulus)%N with 1%N in H. rewrite H. f_equal. lia.
Qed.
