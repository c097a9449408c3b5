From Coq Require Import Permutation.
From Verif Require Import Py PyFacts InfoModel InfoSpec InfoProofs ReplayModel PosModel PosSpec PosProofs RInfoModel RInfoSpec RInfoProofs REntModel.
Open Scope nat_scope.

(* ---- arithmetic and vectors ---- *)
Lemma usize_sub_ok a b : b <= a -> usize_sub a b = Ok (a - b).
Proof. unfold usize_sub. intros H. destruct (Nat.leb_spec b a); [reflexivity|lia]. Qed.

Lemma r_incr_of v i v' : incr_at v (Z.of_nat i) = Ok v' -> r_incr v i = Ok v'.
Proof.
  unfold incr_at, r_incr, py_index. destruct (Z.ltb_spec (Z.of_nat i) 0); [lia|].
  destruct (Z.leb_spec 0 (Z.of_nat i)); [|lia]. destruct (Z.ltb_spec (Z.of_nat i) (Z.of_nat (length v))); cbn [andb bind]; [|discriminate].
  rewrite Nat2Z.id. destruct (Nat.ltb_spec i (length v)); [auto|lia].
Qed.
Lemma r_incr_loop_of l : forall v v', loopM incr_at (map Z.of_nat l) v = Ok v' -> loopM r_incr l v = Ok v'.
Proof.
  induction l as [|i l IH]; intros v v'; cbn [map loopM]; [auto|].
  destruct (incr_at v (Z.of_nat i)) as [w|] eqn:E; cbn [bind]; [|discriminate].
  intros H. rewrite (r_incr_of _ _ _ E). cbn [bind]. auto.
Qed.
Lemma r_incr_loop e l v : length l <= length v ->
  exists v', loopM r_incr (idxs e 0 l) v = Ok v' /\ length v' = length v /\ forall j, nth j v' 0 = nth j v 0 + hit e l j.
Proof.
  intros H. destruct (incr_loop e l v H) as (v' & H1 & H2 & H3). exists v'. split; [apply r_incr_loop_of; exact H1|]. auto.
Qed.

Lemma r_positions_eq t : forall i d, r_positions i t d = positions_from i t d.
Proof. induction t as [|n t IH]; intros i d; [reflexivity|]. cbn [r_positions positions_from]. rewrite IH, Nat.add_1_r. reflexivity. Qed.

Lemma r_two_pointers_kept ig e t : in_ig ig e = false -> forall i k probs, k <= i ->
  r_two_pointers (idxs e i t) (idxs_where (in_ig ig) i t) k probs = loopM r_incr (idxs e (i - k) (kept ig t)) probs.
Proof.
  intros He. unfold idxs. induction t as [|n t IH]; intros i k probs Hk; [reflexivity|].
  rewrite kept_in_ig. cbn [idxs_where]. destruct (eqs e n) eqn:E.
  - apply eqs_eq in E. subst n. rewrite He. cbn [idxs_where]. rewrite (proj2 (eqs_eq e e) eq_refl).
    cbn [r_two_pointers map loopM]. rewrite skip_below.
    + rewrite usize_sub_ok by exact Hk. cbn [bind]. destruct (r_incr probs (i - k)); cbn [bind]; [|reflexivity].
      rewrite IH by lia. replace (S i - k) with (S (i - k)) by lia. reflexivity.
    + apply Forall_forall. intros q Hq. apply idxs_ge in Hq. lia.
  - destruct (in_ig ig n) eqn:Ei.
    + assert (D : forall ours, Forall (fun p => i < p) ours ->
          r_two_pointers ours (i :: idxs_where (in_ig ig) (S i) t) k probs = r_two_pointers ours (idxs_where (in_ig ig) (S i) t) (S k) probs).
      { intros [|p ours] H; [reflexivity|]. inversion H; subst. cbn [r_two_pointers skip_smaller]. destruct (Nat.ltb_spec i p); [|lia]. reflexivity. }
      rewrite D.
      * rewrite IH by lia. cbn [Nat.sub]. reflexivity.
      * apply Forall_forall. intros q Hq. apply idxs_ge in Hq. lia.
    + rewrite IH by lia. cbn [idxs_where]. rewrite E. replace (S i - k) with (S (i - k)) by lia. reflexivity.
Qed.

Lemma r_slow_events_eq e ig t : in_ig ig e = false -> forall v index b,
  r_slow_events e ig t v index b =
  bind (loopM r_incr (idxs e index (kept ig t)) v) (fun v' => Ok (v', b && match kept ig t with [] => true | _ => false end)).
Proof.
  intros He. unfold idxs. induction t as [|n t IH]; intros v index b.
  - cbn. rewrite andb_true_r. reflexivity.
  - cbn [r_slow_events]. rewrite kept_in_ig. unfold in_ig in *. destruct (is_ignored ig n) eqn:Ei.
    + apply IH.
    + cbn [idxs_where]. rewrite Nat.add_1_r. unfold str_eqb, eqs. destruct (str_eq_dec n e) as [->|Hn].
      * destruct (str_eq_dec e e); [|congruence]. cbn [loopM].
        destruct (r_incr v index); cbn [bind]; [|reflexivity]. rewrite IH. rewrite andb_false_r. reflexivity.
      * destruct (str_eq_dec e n); [congruence|]. cbn [bind]. rewrite IH, andb_false_r. reflexivity.
Qed.

(* ---- the longest trace ---- *)
Definition set_valid (ign : option (list pystr)) : Prop := match ign with None => True | Some set => NoDup set end.

Lemma fold_count t S : forall a,
  fold_left (fun s n => match dget str_eq_dec (r_events_counts t) n with Some c => s + c | None => s end) S a =
  a + list_sum (map (count_occ str_eq_dec t) S).
Proof.
  induction S as [|x S IH]; intros a; cbn [fold_left map]; [cbn; lia|]. rewrite IH.
  change (list_sum (count_occ str_eq_dec t x :: map (count_occ str_eq_dec t) S))
    with (count_occ str_eq_dec t x + list_sum (map (count_occ str_eq_dec t) S)).
  pose proof (counter_get str_eq_dec t x) as G. unfold counter in G. unfold r_events_counts. rewrite G.
  destruct (Nat.eqb_spec (count_occ str_eq_dec t x) 0); lia.
Qed.

Lemma fold_max_nat l : forall a, fold_left Nat.max l a = Nat.max a (list_max l).
Proof.
  induction l as [|x l IH]; intros a; cbn [fold_left]; [cbn; lia|]. rewrite IH.
  change (list_max (x :: l)) with (Nat.max x (list_max l)). lia.
Qed.

Lemma kept_perm S S' t : Permutation S S' -> kept (Some S) t = kept (Some S') t.
Proof.
  intros P. unfold kept. apply filter_ext. intros n.
  destruct (in_dec str_eq_dec n S) as [I|I], (in_dec str_eq_dec n S') as [J|J]; try reflexivity; exfalso.
  - apply J. eapply Permutation_in; eassumption.
  - apply I. eapply Permutation_in; [apply Permutation_sym|]; eassumption.
Qed.

Lemma r_max_vector_length_eq ord log ign : any_order ord -> set_valid ign -> (log <> [] \/ ign <> None) ->
  r_max_vector_length ord log ign = Ok (longest log ign).
Proof.
  intros O V H. destruct ign as [S|]; cbn [r_max_vector_length].
  - unfold r_vector_length_ignored, longest. clear H. cbn in V.
    set (f := fun max t => _).
    assert (G : forall log m, loopM f log m = Ok (Nat.max m (list_max (map (fun t => length (kept (Some S) t)) log)))).
    { clear log. induction log as [|t log IH]; intros m; [cbn; f_equal; lia|]. rewrite loopM_cons. unfold f at 1.
      rewrite fold_count. cbn [Nat.add].
      assert (N : NoDup (ord 10 _ S)) by (eapply Permutation_NoDup; [apply Permutation_sym, O|exact V]).
      pose proof (count_ignored (ord 10 _ S) t N) as C. rewrite (kept_perm _ S) in C by apply O.
      rewrite usize_sub_ok by lia. cbn [bind]. rewrite IH. f_equal. cbn [map].
      change (list_max (length (kept (Some S) t) :: map (fun t => length (kept (Some S) t)) log))
        with (Nat.max (length (kept (Some S) t)) (list_max (map (fun t => length (kept (Some S) t)) log))). lia. }
    rewrite G. reflexivity.
  - destruct H as [H|H]; [|congruence]. unfold r_vector_length, longest. destruct log as [|t log]; [congruence|]. cbn [map].
    rewrite fold_max_nat. rewrite kept_None.
    rewrite (map_ext (fun t => length (kept None t)) (@length pystr)) by (intros x; rewrite kept_None; reflexivity). reflexivity.
Qed.

(* ---- the loops ---- *)
Lemma r_fast_trace_eq ord ign e t probs ne : any_order ord -> set_valid ign ->
  in_ig ign e = false -> length (kept ign t) <= length probs ->
  exists probs', r_fast_trace ord e ign (probs, ne) t = Ok (probs', nonempty ign t + ne) /\
    length probs' = length probs /\ forall j, nth j probs' 0 = nth j probs 0 + hit e (kept ign t) j.
Proof.
  intros O V He Hl. unfold r_fast_trace. cbn [fst snd]. rewrite r_positions_eq.
  set (ignored := match ign with None => [] | Some i => _ end).
  assert (Hig : sort_nat ignored = idxs_where (in_ig ign) 0 t).
  { unfold ignored. destruct ign as [S|].
    - cbn in V. change (in_ig (Some S)) with (fun n => str_mem n S). rewrite <- ignored_sorted by exact V.
      apply sorted_perm_eq; [apply sort_nat_sorted|apply sort_nat_sorted|].
      rewrite <- !sort_nat_perm.
      rewrite (flat_map_ext _ (fun x => idxs x 0 t)).
      + apply Permutation_flat_map, O.
      + intros x. change (getl (positions_from 0 t []) x = idxs x 0 t). rewrite positions_getl. reflexivity.
    - cbn. assert (H : forall i, idxs_where (in_ig None) i t = []); [|rewrite H; reflexivity].
      clear. induction t as [|n t IH]; intros i; cbn; [reflexivity|]. apply IH. }
  assert (Hlen : length ignored + length (kept ign t) = length t).
  { rewrite (Permutation_length (sort_nat_perm ignored)), Hig. generalize 0 as i. clear.
    induction t as [|n t IH]; intros i; [reflexivity|]. rewrite kept_in_ig. cbn [idxs_where length].
    specialize (IH (S i)). destruct (in_ig ign n); cbn [length]; lia. }
  destruct (Nat.eqb_spec (length ignored) (length t)) as [E|E].
  - assert (K : kept ign t = []) by (apply length_zero_iff_nil; lia).
    exists probs. unfold nonempty. rewrite K. split; [reflexivity|split; [reflexivity|]].
    intros j. unfold hit, is_at. destruct j; cbn; lia.
  - assert (K : nonempty ign t = 1). { unfold nonempty. destruct (kept ign t); [cbn in Hlen; lia|reflexivity]. }
    rewrite K, (Nat.add_comm ne 1).
    assert (Hours : getl (positions_from 0 t []) e = idxs e 0 t) by (rewrite positions_getl; reflexivity).
    destruct (r_incr_loop e (kept ign t) probs Hl) as (v' & H1 & H2 & H3).
    unfold getl in Hours. destruct (dget str_eq_dec (positions_from 0 t []) e) as [ours|].
    + subst ours. rewrite Hig, r_two_pointers_kept by (assumption || lia). cbn [Nat.sub]. rewrite H1. cbn [bind].
      exists v'. auto.
    + pose proof (r_two_pointers_kept ign e t He 0 0 probs (le_n 0)) as H4. cbn [Nat.sub] in H4.
      rewrite H1, <- Hours in H4. cbn in H4. injection H4 as <-. exists probs. auto.
Qed.

Lemma r_slow_trace_eq ign e t probs ne : in_ig ign e = false -> length (kept ign t) <= length probs ->
  exists probs', r_slow_trace e ign (probs, ne) t = Ok (probs', nonempty ign t + ne) /\
    length probs' = length probs /\ forall j, nth j probs' 0 = nth j probs 0 + hit e (kept ign t) j.
Proof.
  intros He Hl. unfold r_slow_trace. cbn [fst snd]. rewrite r_slow_events_eq by exact He.
  destruct (r_incr_loop e (kept ign t) probs Hl) as (v' & H1 & H2 & H3). rewrite H1. cbn [bind fst snd andb].
  exists v'. split; [|auto]. unfold nonempty. destruct (kept ign t); cbn; [reflexivity|]. rewrite Nat.add_1_r. reflexivity.
Qed.

Lemma r_loop (f : list nat * nat -> list pystr -> result (list nat * nat)) ign e :
  (forall t probs ne, length (kept ign t) <= length probs ->
     exists probs', f (probs, ne) t = Ok (probs', nonempty ign t + ne) /\
       length probs' = length probs /\ forall j, nth j probs' 0 = nth j probs 0 + hit e (kept ign t) j) ->
  forall log probs ne, (forall t, In t log -> length (kept ign t) <= length probs) ->
  exists probs', loopM f log (probs, ne) = Ok (probs', ne + non_empty_traces log ign) /\
    length probs' = length probs /\ forall j, nth j probs' 0 = nth j probs 0 + traces_with_at log ign e j.
Proof.
  intros F. induction log as [|t log IH]; intros probs ne Hl.
  - exists probs. cbn. split; [do 2 f_equal; unfold non_empty_traces, how_many; cbn; lia|split; [reflexivity|]].
    intros j. unfold traces_with_at, how_many. cbn. lia.
  - rewrite loopM_cons. destruct (F t probs ne) as (p1 & H1 & H2 & H3); [apply Hl; left; reflexivity|].
    rewrite H1. cbn [bind]. destruct (IH p1 (nonempty ign t + ne)) as (p2 & G1 & G2 & G3).
    { intros t' Ht'. rewrite H2. apply Hl. right; exact Ht'. }
    exists p2. split; [|split; [congruence|]].
    + rewrite G1. do 2 f_equal. unfold non_empty_traces, how_many, nonempty. cbn [filter]. destruct (kept ign t); cbn [length]; lia.
    + intros j. rewrite G3, H3. unfold traces_with_at, how_many, hit. cbn [filter].
      destruct (is_at e j (kept ign t)); cbn [length]; lia.
Qed.

Definition not_in_set (ign : option (list pystr)) (e : pystr) : Prop := match ign with None => True | Some l => ~ In e l end.
Lemma not_in_set_ig ign e : not_in_set ign e -> in_ig ign e = false.
Proof. unfold in_ig, is_ignored, not_in_set. destruct ign; [apply str_mem_false|reflexivity]. Qed.

Lemma r_pos_proof ord {F} (finish : list nat -> nat -> F) log e ign : any_order ord ->
  (log <> [] \/ ign <> None) -> set_valid ign -> not_in_set ign e ->
  r_pos_entropy_fast ord finish log e ign = Ok (finish (position_counts log ign e) (non_empty_traces log ign)) /\
  r_pos_entropy_slow ord finish log e ign = Ok (finish (position_counts log ign e) (non_empty_traces log ign)).
Proof.
  intros O Hne V He. apply not_in_set_ig in He.
  assert (Hl : forall t, In t log -> length (kept ign t) <= length (repeat 0 (longest log ign))).
  { intros t Ht. rewrite repeat_length. apply longest_ge; exact Ht. }
  unfold r_pos_entropy_fast, r_pos_entropy_slow. rewrite r_max_vector_length_eq by assumption. cbn [bind]. split.
  - destruct (r_loop (r_fast_trace ord e ign) ign e (fun t p n H => r_fast_trace_eq ord ign e t p n O V He H) log _ 0 Hl) as (p & H1 & H2 & H3).
    rewrite H1. cbn [bind fst snd Nat.add]. do 2 f_equal. apply vector_eq.
    + rewrite H2. apply repeat_length.
    + intros j. rewrite H3, nth_repeat. reflexivity.
  - destruct (r_loop (r_slow_trace e ign) ign e (fun t p n H => r_slow_trace_eq ign e t p n He H) log _ 0 Hl) as (p & H1 & H2 & H3).
    rewrite H1. cbn [bind fst snd Nat.add]. do 2 f_equal. apply vector_eq.
    + rewrite H2. apply repeat_length.
    + intros j. rewrite H3, nth_repeat. reflexivity.
Qed.

Lemma is_ignored_iff ign n : is_ignored ign n = false <-> not_in_set ign n.
Proof. unfold is_ignored, not_in_set. destruct ign; [apply str_mem_false|split; auto]. Qed.

(** One entry for each name, from any function of the name. *)
Lemma fold_dset_entries {V} (g : pystr -> V) (p : pystr -> bool) : forall l acc,
  NoDup l -> (forall n, In n l -> ~ In n (dkeys acc)) ->
  fold_left (fun acc n => if p n then acc else dset str_eq_dec acc n (g n)) l acc = acc ++ map (fun n => (n, g n)) (filter (fun n => negb (p n)) l).
Proof.
  induction l as [|n l IH]; intros acc Hnd Hd; cbn [fold_left filter]; [cbn; rewrite app_nil_r; reflexivity|].
  inversion Hnd as [|? ? Hn Hnd']; subst. destruct (p n); cbn [negb map].
  - apply IH; [exact Hnd'|]. intros m Hm. apply Hd. right; exact Hm.
  - pose proof (fold_dset_fresh g [n] acc) as E. cbn [fold_left map] in E. rewrite E.
    + rewrite IH; [rewrite <- app_assoc; reflexivity|exact Hnd'|].
      intros m Hm. unfold dkeys. rewrite map_app, in_app_iff. cbn. intros [H|[H|[]]].
      * revert H. apply Hd. right; exact Hm.
      * subst; contradiction.
    + repeat constructor; intros [].
    + intros m [<-|[]]. apply Hd. left; reflexivity.
Qed.

Lemma occurrences_kept log ign n : In n (occurrences log ign) <-> In n (occurrences log None) /\ not_in_set ign n.
Proof.
  unfold occurrences. rewrite !in_flat_map. split.
  - intros (t & Ht & H). unfold kept in H. apply filter_In in H. destruct H as [H1 H2]. split.
    + exists t. split; [exact Ht|]. rewrite kept_None. exact H1.
    + unfold not_in_set. destruct ign as [l|]; [|exact I]. destruct (in_dec str_eq_dec n l); [discriminate|assumption].
  - intros [(t & Ht & H) Hn]. rewrite kept_None in H. exists t. split; [exact Ht|]. unfold kept. apply filter_In. split; [exact H|].
    unfold not_in_set in Hn. destruct ign as [l|]; [|reflexivity]. destruct (in_dec str_eq_dec n l); [contradiction|reflexivity].
Qed.

Lemma dkeys_map {V} (g : pystr -> V) l : dkeys (map (fun n => (n, g n)) l) = l.
Proof. unfold dkeys. rewrite map_map. cbn. apply map_id. Qed.

Lemma r_calculate_entropies_eq ord {F} (g : pystr -> F) calc log ign : any_order ord ->
  (forall n, In n (occurrences log ign) -> calc log n ign = Ok (g n)) ->
  exists l, NoDup l /\ (forall n, In n l <-> In n (occurrences log ign)) /\
    r_calculate_entropies ord log ign calc = Ok (map (fun n => (n, g n)) l).
Proof.
  intros O C. unfold r_calculate_entropies.
  destruct (counts_proof ord O log false None) as (_ & K & _). destruct (K 12) as [N M]. clear K.
  set (names := r_all_event_classes ord 12 (r_create_from ord log false None)) in *.
  exists (filter (fun n => negb (is_ignored ign n)) names). split; [apply NoDup_filter; exact N|]. split.
  - intros n. rewrite filter_In, M, (occurrences_kept log ign), negb_true_iff, is_ignored_iff. reflexivity.
  - assert (L : forall l acc, (forall n, In n l -> In n (occurrences log None)) ->
      loopM (fun entropies name => if is_ignored ign name then Ok entropies
                else bind (calc log name ign) (fun e => Ok (dset str_eq_dec entropies name e))) l acc =
      Ok (fold_left (fun acc n => if is_ignored ign n then acc else dset str_eq_dec acc n (g n)) l acc)).
    { induction l as [|n l IH]; intros acc H; [reflexivity|]. rewrite loopM_cons. cbn [fold_left].
      destruct (is_ignored ign n) eqn:E; cbn [bind].
      - apply IH. intros m Hm. apply H. right; exact Hm.
      - rewrite C by (apply occurrences_kept; split; [apply H; left; reflexivity|apply is_ignored_iff; exact E]). cbn [bind].
        apply IH. intros m Hm. apply H. right; exact Hm. }
    rewrite L by (intros n; apply M). rewrite fold_dset_entries; [reflexivity|exact N|intros n _ []].
Qed.

Lemma r_pos_tables_proof ord {F} (finish : list nat -> nat -> F) log ign : any_order ord -> set_valid ign ->
  exists d, r_pos_entropies_fast ord finish log ign = Ok d /\ r_pos_entropies ord finish log ign = Ok d /\
    NoDup (dkeys d) /\ (forall n, In n (dkeys d) <-> In n (occurrences log ign)) /\
    forall n x, In (n, x) d -> x = finish (position_counts log ign n) (non_empty_traces log ign).
Proof.
  intros O V. set (g := fun n => finish (position_counts log ign n) (non_empty_traces log ign)).
  assert (P : forall n, In n (occurrences log ign) ->
     r_pos_entropy_fast ord finish log n ign = Ok (g n) /\ r_pos_entropy_slow ord finish log n ign = Ok (g n)).
  { intros n H. apply occurrences_not_ignored in H. destruct H as [H1 H2]. apply r_pos_proof; auto. }
  destruct (r_calculate_entropies_eq ord g (r_pos_entropy_fast ord finish) log ign O (fun n H => proj1 (P n H))) as (l & N & M & E).
  destruct (r_calculate_entropies_eq ord g (r_pos_entropy_slow ord finish) log ign O (fun n H => proj2 (P n H))) as (l' & _ & _ & E').
  exists (map (fun n => (n, g n)) l). split; [exact E|]. split.
  - unfold r_pos_entropies. rewrite E'. f_equal.
    assert (Q : forall calc calc', (forall n, In n (occurrences log ign) -> calc log n ign = Ok (g n)) ->
       (forall n, In n (occurrences log ign) -> calc' log n ign = Ok (g n)) ->
       r_calculate_entropies ord log ign calc = r_calculate_entropies ord log ign calc').
    { intros c c' H H'. unfold r_calculate_entropies.
      destruct (counts_proof ord O log false None) as (_ & K & _). destruct (K 12) as [_ M']. clear K. revert M'.
      generalize (r_all_event_classes ord 12 (r_create_from ord log false None)). intros names M'.
      assert (M'' : forall n, In n names -> In n (occurrences log None)) by (intros n; apply M'). clear M'.
      generalize (@nil (pystr * F)). induction names as [|n names IH]; intros acc; [reflexivity|]. rewrite !loopM_cons.
      assert (I : is_ignored ign n = false -> In n (occurrences log ign)).
      { intros I. apply occurrences_kept. split; [apply M''; left; reflexivity|apply is_ignored_iff; exact I]. }
      destruct (is_ignored ign n); cbn [bind].
      - apply IH. intros m Hm. apply M''. right; exact Hm.
      - rewrite H, H' by auto. cbn [bind]. apply IH. intros m Hm. apply M''. right; exact Hm. }
    pose proof (Q _ _ (fun n H => proj1 (P n H)) (fun n H => proj2 (P n H))) as Q'. rewrite E, E' in Q'. congruence.
  - rewrite dkeys_map. split; [exact N|]. split; [exact M|]. intros n x H. apply in_map_iff in H. destruct H as (m & H & _). injection H as <- <-. reflexivity.
Qed.

(** As the Python library does. *)
Lemma r_same_as_library ord {F} (finish : list nat -> nat -> F) log ign cached : any_order ord -> set_valid ign ->
  (cached = None \/ cached = Some (create_events_positions log)) ->
  let ig := option_map (fun S => mkIgn S (calculate_events_in_each_trace log)) ign in
  exists d d', r_pos_entropies_fast ord finish log ign = Ok d /\ position_entropies_fast finish log ig cached = Ok d' /\
    Permutation d d'.
Proof.
  intros O V Hc ig.
  assert (I : ign_names ig = ign) by (unfold ig; destruct ign; reflexivity).
  assert (Hv : ig_valid log ig) by (unfold ig; destruct ign; cbn; auto).
  destruct (r_pos_tables_proof ord finish log ign O V) as (d & E & _ & N & M & X).
  destruct (position_dicts_proof finish log ig cached Hv Hc) as [E' _]. rewrite I in E'.
  exists d, (pos_dict finish log ign). split; [exact E|]. split; [exact E'|].
  assert (D : d = map (fun n => (n, finish (position_counts log ign n) (non_empty_traces log ign))) (dkeys d)).
  { clear - X. induction d as [|[n x] d IH]; [reflexivity|]. cbn [dkeys map fst]. f_equal.
    - f_equal. apply X. left; reflexivity.
    - apply IH. intros m y H. apply X. right; exact H. }
  rewrite D. unfold pos_dict. apply Permutation_map. apply NoDup_Permutation.
  - exact N.
  - apply (info_keys_proof log ign true).
  - intros n. rewrite M. symmetry. apply (info_keys_proof log ign true).
Qed.
