From Coq Require Import Permutation.
From Verif Require Import Py PyFacts InfoModel InfoSpec.
Arguments how_many : simpl never.

(** Counting dictionaries. *)
Section Counter.
  Context {K : Type}.
  Variable eqd : forall a b : K, {a = b} + {a <> b}.

  Definition counter (l : list K) : dict K nat := fold_left (increase_in_int_map eqd) l [].

  Definition cnt (d : dict K nat) (k : K) : nat := match dget eqd d k with Some v => v | None => 0 end.

  Lemma increase_get d k k' :
    dget eqd (increase_in_int_map eqd d k) k' =
    if eqd k k' then Some (S (cnt d k)) else dget eqd d k'.
  Proof.
    unfold increase_in_int_map. rewrite dget_dset. unfold cnt.
    destruct (eqd k k'); [|reflexivity]. f_equal. lia.
  Qed.

  Lemma increase_keys d k k' : In k' (dkeys (increase_in_int_map eqd d k)) <-> k' = k \/ In k' (dkeys d).
  Proof. apply dset_In_keys. Qed.

  Lemma increase_NoDup d k : NoDup (dkeys d) -> NoDup (dkeys (increase_in_int_map eqd d k)).
  Proof. apply dset_NoDup. Qed.

  Lemma fold_increase_NoDup l d : NoDup (dkeys d) -> NoDup (dkeys (fold_left (increase_in_int_map eqd) l d)).
  Proof. revert d; induction l as [|x l IH]; intros d H; cbn [fold_left]; [exact H|]. apply IH, increase_NoDup, H. Qed.

  Lemma fold_increase_cnt l d k :
    cnt (fold_left (increase_in_int_map eqd) l d) k = cnt d k + count_occ eqd l k.
  Proof.
    revert d; induction l as [|x l IH]; intros d; cbn [fold_left count_occ]; [lia|].
    rewrite IH. unfold cnt at 1. rewrite increase_get.
    destruct (eqd x k) as [->|Hn]; [lia|]. unfold cnt; lia.
  Qed.

  Lemma fold_increase_keys l d k :
    In k (dkeys (fold_left (increase_in_int_map eqd) l d)) <-> In k (dkeys d) \/ In k l.
  Proof.
    revert d; induction l as [|x l IH]; intros d; cbn [fold_left In]; [tauto|].
    rewrite IH, increase_keys. intuition congruence.
  Qed.

  Lemma counter_get l k :
    dget eqd (counter l) k = if count_occ eqd l k =? 0 then None else Some (count_occ eqd l k).
  Proof.
    pose proof (fold_increase_cnt l [] k) as H. unfold cnt in H. cbn in H. fold (counter l) in H.
    destruct (dget eqd (counter l) k) as [v|] eqn:E.
    - subst v. destruct (count_occ eqd l k =? 0) eqn:E0; [|reflexivity].
      apply Nat.eqb_eq in E0.
      assert (Hk : In k (dkeys (counter l))) by (apply (dget_Some_key eqd); eauto).
      apply fold_increase_keys in Hk. destruct Hk as [[]|Hk].
      apply (count_occ_In eqd) in Hk. lia.
    - rewrite <- H. reflexivity.
  Qed.

  Lemma counter_keys l k : In k (dkeys (counter l)) <-> In k l.
  Proof. unfold counter. rewrite fold_increase_keys. cbn. tauto. Qed.

  Lemma counter_NoDup l : NoDup (dkeys (counter l)).
  Proof. apply fold_increase_NoDup. constructor. Qed.

  (** Sum of the counters of a class of keys. *)
  Definition sum_where (p : K -> bool) (d : dict K nat) : nat :=
    list_sum (map snd (filter (fun kv => p (fst kv)) d)).

  Lemma sum_where_dset p d k v :
    sum_where p (dset eqd d k v) + (if p k then cnt d k else 0) = sum_where p d + (if p k then v else 0).
  Proof.
    unfold sum_where, cnt.
    induction d as [|[k' v'] d IH]; cbn [dset dget].
    - cbn. destruct (p k); cbn; lia.
    - destruct (eqd k k') as [->|Hn].
      + cbn. destruct (p k'); cbn; lia.
      + cbn [filter fst]. destruct (p k'); cbn [map snd list_sum fold_right]; unfold list_sum in *; lia.
  Qed.

  Lemma sum_where_increase p d k :
    sum_where p (increase_in_int_map eqd d k) = sum_where p d + (if p k then 1 else 0).
  Proof.
    unfold increase_in_int_map. pose proof (sum_where_dset p d k (cnt d k + 1)) as H. unfold cnt in *.
    destruct (p k); lia.
  Qed.

  Lemma counter_sum_where p l : sum_where p (counter l) = how_many p l.
  Proof.
    unfold counter.
    assert (H : forall l d, sum_where p (fold_left (increase_in_int_map eqd) l d) = sum_where p d + how_many p l).
    { clear l. induction l as [|x l IH]; intros d; cbn [fold_left]; [unfold how_many; cbn; lia|].
      rewrite IH, sum_where_increase. unfold how_many; cbn. destruct (p x); cbn; lia. }
    rewrite H. reflexivity.
  Qed.
End Counter.

Lemma is_ignored_kept ign n t :
  kept ign (n :: t) = if is_ignored ign n then kept ign t else n :: kept ign t.
Proof.
  unfold kept, is_ignored, str_mem; cbn [filter]. destruct ign as [l|]; [|reflexivity].
  destruct (in_dec str_eq_dec n l) as [H|H].
  - replace (existsb (str_eqb n) l) with true; [reflexivity|]. symmetry. apply existsb_exists.
    exists n. split; [assumption|apply str_eqb_refl].
  - destruct (existsb (str_eqb n) l) eqn:E; [|reflexivity]. apply existsb_exists in E.
    destruct E as [x [Hx Ex]]. apply str_eqb_eq in Ex. congruence.
Qed.

(** The loop over one trace adds exactly the steps and occurrences. *)
Definition add_counts (c : counts) (ps : list (pystr * pystr)) (es : list pystr) : counts :=
  mkCounts (fold_left (increase_in_int_map pair_eq_dec) ps (c_pairs c))
           (fold_left (increase_in_int_map str_eq_dec) es (c_events c)).

Lemma neighbours_cons {A} (x y : A) l : neighbours (x :: y :: l) = (x, y) :: neighbours (y :: l).
Proof. reflexivity. Qed.

Lemma info_trace_some ign fake t p c :
  info_trace ign fake t (Some p) c =
  add_counts c (neighbours ((p :: kept ign t) ++ (if fake then [fake_end_name] else []))) (kept ign t).
Proof.
  revert p c; induction t as [|n t IH]; intros p c.
  - cbn. destruct fake; destruct c; reflexivity.
  - cbn [info_trace]. rewrite is_ignored_kept. destruct (is_ignored ign n); [apply IH|].
    rewrite IH. destruct c as [ps es]. reflexivity.
Qed.

Lemma info_trace_none ign fake t c :
  info_trace ign fake t None c =
  add_counts c (neighbours (walk fake (kept ign t))) (kept ign t).
Proof.
  revert c; induction t as [|n t IH]; intros c.
  - destruct c; reflexivity.
  - cbn [info_trace]. rewrite is_ignored_kept. destruct (is_ignored ign n); [apply IH|].
    rewrite info_trace_some. unfold walk. destruct fake; destruct c as [ps es].
    + reflexivity.
    + rewrite app_nil_r. reflexivity.
Qed.

Lemma info_counts ign fake log c :
  fold_left (fun c t => info_trace ign fake t None c) log c =
  add_counts c (steps log ign fake) (occurrences log ign).
Proof.
  revert c; induction log as [|t log IH]; intros c; cbn [fold_left].
  - destruct c; reflexivity.
  - rewrite IH, info_trace_none. unfold add_counts, steps, occurrences; cbn [flat_map c_pairs c_events].
    rewrite !fold_left_app. reflexivity.
Qed.

Lemma info_eq log ign fake :
  create_log_information log ign fake =
  mkInfo (make_dfg (counter pair_eq_dec (steps log ign fake)))
         (counter str_eq_dec (occurrences log ign)).
Proof. unfold create_log_information. rewrite info_counts. reflexivity. Qed.

Lemma make_dfg_pairs ps : d_pairs (make_dfg ps) = ps.
Proof. unfold make_dfg. destruct (fold_left dfg_step ps ([], [])); reflexivity. Qed.

Lemma pairs_exact_proof log ign fake a b :
  dget pair_eq_dec (d_pairs (li_dfg (create_log_information log ign fake))) (a, b) =
  let c := count_occ pair_eq_dec (steps log ign fake) (a, b) in
  if c =? 0 then None else Some c.
Proof. rewrite info_eq. cbn [li_dfg]. rewrite make_dfg_pairs. apply counter_get. Qed.

Lemma events_exact_proof log ign fake n :
  dget str_eq_dec (li_events_count (create_log_information log ign fake)) n =
  let c := count_occ str_eq_dec (occurrences log ign) n in
  if c =? 0 then None else Some c.
Proof. rewrite info_eq. apply counter_get. Qed.

Lemma info_keys_proof log ign fake :
  NoDup (dkeys (d_pairs (li_dfg (create_log_information log ign fake)))) /\
  NoDup (dkeys (li_events_count (create_log_information log ign fake))) /\
  (forall n, In n (dkeys (li_events_count (create_log_information log ign fake))) <-> In n (occurrences log ign)) /\
  (forall p, In p (dkeys (d_pairs (li_dfg (create_log_information log ign fake)))) <-> In p (steps log ign fake)).
Proof.
  rewrite info_eq. cbn [li_dfg li_events_count]. rewrite make_dfg_pairs.
  repeat split; try apply counter_NoDup; try apply counter_keys.
Qed.

(* -- conservation -- *)
Lemma how_many_app {A} (p : A -> bool) l1 l2 : how_many p (l1 ++ l2) = how_many p l1 + how_many p l2.
Proof. unfold how_many. rewrite filter_app, app_length; reflexivity. Qed.

Lemma how_many_flat_map {A B} (p : B -> bool) (f : A -> list B) l :
  how_many p (flat_map f l) = list_sum (map (fun x => how_many p (f x)) l).
Proof. induction l as [|x l IH]; cbn; [reflexivity|]. rewrite how_many_app, IH. reflexivity. Qed.

Lemma how_many_fst_neighbours {A} (p : A -> bool) l x :
  how_many (fun q => p (fst q)) (neighbours (l ++ [x])) = how_many p l.
Proof.
  induction l as [|y l IH]; [reflexivity|].
  destruct l as [|z l].
  - unfold how_many; cbn. destruct (p y); reflexivity.
  - cbn [app] in *. rewrite neighbours_cons. unfold how_many in *. cbn [filter fst].
    destruct (p y); cbn [length]; rewrite IH; reflexivity.
Qed.

Lemma how_many_snd_neighbours {A} (p : A -> bool) x l :
  how_many (fun q => p (snd q)) (neighbours (x :: l)) = how_many p l.
Proof.
  revert x; induction l as [|y l IH]; intros x; [reflexivity|].
  rewrite neighbours_cons. unfold how_many in *. cbn [filter snd].
  destruct (p y); cbn [length]; rewrite IH; reflexivity.
Qed.

Lemma walk_out p t : p fake_start_name = false ->
  how_many (fun q => p (fst q)) (neighbours (walk true t)) = how_many p t.
Proof.
  intros Hp. destruct t as [|n t]; [reflexivity|]. unfold walk.
  change ([str "FAKE_START"] ++ (n :: t) ++ [str "FAKE_END"])
    with ((fake_start_name :: n :: t) ++ [fake_end_name]).
  rewrite how_many_fst_neighbours. unfold how_many. cbn [filter]. rewrite Hp. reflexivity.
Qed.

Lemma walk_in p t : p fake_end_name = false ->
  how_many (fun q => p (snd q)) (neighbours (walk true t)) = how_many p t.
Proof.
  intros Hp. destruct t as [|n t]; [reflexivity|]. unfold walk.
  change ([str "FAKE_START"] ++ (n :: t) ++ [str "FAKE_END"])
    with (fake_start_name :: (n :: t) ++ [fake_end_name]).
  rewrite how_many_snd_neighbours, how_many_app. unfold how_many at 2. cbn [filter]. rewrite Hp. cbn. lia.
Qed.

Lemma list_sum_map_ext {A} (f g : A -> nat) l : (forall x, In x l -> f x = g x) -> list_sum (map f l) = list_sum (map g l).
Proof. intros H. f_equal. apply map_ext_in. exact H. Qed.

Lemma sum_out p log ign : p fake_start_name = false ->
  how_many (fun q => p (fst q)) (steps log ign true) = how_many p (occurrences log ign).
Proof.
  intros Hp. unfold steps, occurrences. rewrite !how_many_flat_map.
  apply list_sum_map_ext. intros t _. apply walk_out, Hp.
Qed.

Lemma sum_in p log ign : p fake_end_name = false ->
  how_many (fun q => p (snd q)) (steps log ign true) = how_many p (occurrences log ign).
Proof.
  intros Hp. unfold steps, occurrences. rewrite !how_many_flat_map.
  apply list_sum_map_ext. intros t _. apply walk_in, Hp.
Qed.

Lemma how_many_eqs_none a l : ~ In a l -> how_many (fun x => eqs a x) l = 0.
Proof.
  unfold how_many. induction l as [|y l IH]; intros Hn; [reflexivity|].
  cbn [filter]. unfold eqs at 1. destruct (str_eq_dec a y) as [e|_].
  - exfalso; apply Hn; left; congruence.
  - apply IH. intros H; apply Hn; right; exact H.
Qed.

Lemma eqs_refl a : eqs a a = true.
Proof. unfold eqs; destruct (str_eq_dec a a); congruence. Qed.

Lemma walk_start t : ~ In fake_start_name t ->
  how_many (fun q => eqs fake_start_name (fst q)) (neighbours (walk true t)) = if t then 0 else 1.
Proof.
  intros Hn. destruct t as [|n t]; [reflexivity|]. unfold walk.
  change ([str "FAKE_START"] ++ (n :: t) ++ [str "FAKE_END"])
    with ((fake_start_name :: n :: t) ++ [fake_end_name]).
  rewrite (how_many_fst_neighbours (fun x => eqs fake_start_name x)).
  change (fake_start_name :: n :: t) with ([fake_start_name] ++ n :: t).
  rewrite how_many_app, (how_many_eqs_none _ (n :: t)) by exact Hn.
  unfold how_many. cbn [filter]. rewrite eqs_refl. reflexivity.
Qed.

Lemma walk_end t : ~ In fake_end_name t ->
  how_many (fun q => eqs fake_end_name (snd q)) (neighbours (walk true t)) = if t then 0 else 1.
Proof.
  intros Hn. destruct t as [|n t]; [reflexivity|]. unfold walk.
  change ([str "FAKE_START"] ++ (n :: t) ++ [str "FAKE_END"])
    with (fake_start_name :: (n :: t) ++ [fake_end_name]).
  rewrite (how_many_snd_neighbours (fun x => eqs fake_end_name x)), how_many_app.
  rewrite how_many_eqs_none by exact Hn.
  unfold how_many. cbn [filter]. rewrite eqs_refl. reflexivity.
Qed.

Lemma count_occ_how_many l (n : pystr) : count_occ str_eq_dec l n = how_many (eqs n) l.
Proof.
  unfold how_many, eqs. induction l as [|x l IH]; cbn; [reflexivity|].
  destruct (str_eq_dec x n) as [->|Hn].
  - destruct (str_eq_dec n n); [cbn; congruence|congruence].
  - destruct (str_eq_dec n x); [congruence|exact IH].
Qed.

Definition pairs_of_info i := d_pairs (li_dfg i).

Lemma conservation_proof log ign a :
  let info := create_log_information log ign true in
  (a <> str "FAKE_START" ->
     list_sum (map snd (filter (fun kv => eqs a (fst (fst kv))) (d_pairs (li_dfg info)))) =
     count_occ str_eq_dec (occurrences log ign) a) /\
  (a <> str "FAKE_END" ->
     list_sum (map snd (filter (fun kv => eqs a (snd (fst kv))) (d_pairs (li_dfg info)))) =
     count_occ str_eq_dec (occurrences log ign) a).
Proof.
  cbn zeta. rewrite info_eq. cbn [li_dfg]. rewrite make_dfg_pairs. rewrite count_occ_how_many.
  split; intros Ha.
  - change (list_sum _) with (sum_where (fun q => eqs a (fst q)) (counter pair_eq_dec (steps log ign true))).
    rewrite counter_sum_where. apply sum_out.
    unfold eqs. destruct (str_eq_dec a fake_start_name); [contradiction|reflexivity].
  - change (list_sum _) with (sum_where (fun q => eqs a (snd q)) (counter pair_eq_dec (steps log ign true))).
    rewrite counter_sum_where. apply sum_in.
    unfold eqs. destruct (str_eq_dec a fake_end_name); [contradiction|reflexivity].
Qed.

Lemma kept_notin ign t x : ~ In x t -> ~ In x (kept ign t).
Proof. intros H Hin. apply H. unfold kept in Hin. apply filter_In in Hin. tauto. Qed.

Lemma fake_totals_proof log ign :
  (forall t, In t log -> ~ In (str "FAKE_START") t /\ ~ In (str "FAKE_END") t) ->
  let info := create_log_information log ign true in
  list_sum (map snd (filter (fun kv => eqs (str "FAKE_START") (fst (fst kv))) (d_pairs (li_dfg info)))) =
  how_many (fun t => match kept ign t with [] => false | _ => true end) log /\
  list_sum (map snd (filter (fun kv => eqs (str "FAKE_END") (snd (fst kv))) (d_pairs (li_dfg info)))) =
  how_many (fun t => match kept ign t with [] => false | _ => true end) log.
Proof.
  intros Hf. cbn zeta. rewrite info_eq. cbn [li_dfg]. rewrite make_dfg_pairs.
  assert (E : forall l, how_many (fun t => match kept ign t with [] => false | _ => true end) l
              = list_sum (map (fun t => if kept ign t then 0 else 1) l)).
  { induction l as [|t l IH]; [reflexivity|]. unfold how_many in *. cbn [filter map list_sum fold_right].
    destruct (kept ign t); cbn [length]; [exact IH|]. cbn. f_equal. exact IH. }
  split.
  - change (list_sum _) with (sum_where (fun q => eqs fake_start_name (fst q)) (counter pair_eq_dec (steps log ign true))).
    rewrite counter_sum_where, E. unfold steps. rewrite how_many_flat_map.
    apply list_sum_map_ext. intros t Ht. apply walk_start. apply kept_notin. apply (Hf t Ht).
  - change (list_sum _) with (sum_where (fun q => eqs fake_end_name (snd q)) (counter pair_eq_dec (steps log ign true))).
    rewrite counter_sum_where, E. unfold steps. rewrite how_many_flat_map.
    apply list_sum_map_ext. intros t Ht. apply walk_end. apply kept_notin. apply (Hf t Ht).
Qed.

(* -- DirectlyFollowsGraph -- *)
Lemma str_mem_In x l : str_mem x l = true <-> In x l.
Proof.
  unfold str_mem. rewrite existsb_exists. split.
  - intros [y [Hy E]]. apply str_eqb_eq in E. subst; assumption.
  - intros H. exists x. split; [assumption|apply str_eqb_refl].
Qed.

Lemma set_add_In s x y : In y (set_add s x) <-> y = x \/ In y s.
Proof.
  unfold set_add. destruct (str_mem x s) eqn:E.
  - apply str_mem_In in E. split; [auto|]. intros [->|H]; assumption.
  - rewrite in_app_iff. cbn. intuition congruence.
Qed.

Lemma set_remove_In s x y : In y (set_remove s x) <-> y <> x /\ In y s.
Proof.
  unfold set_remove. rewrite filter_In, negb_true_iff, str_eqb_neq. intuition congruence.
Qed.

(** invariant over processed keys [ps] *)
Definition dfg_inv (ps : dict (pystr * pystr) nat) (g : dict pystr (dict pystr nat) * list pystr) : Prop :=
  (forall a m, dget str_eq_dec (fst g) a = Some m ->
     (forall b, dget str_eq_dec m b = dget pair_eq_dec ps (a, b)) /\ NoDup (dkeys m) /\ m <> []) /\
  (forall a, dget str_eq_dec (fst g) a = None -> forall b, dget pair_eq_dec ps (a, b) = None) /\
  (forall a, In a (snd g) <-> exists b, dmem pair_eq_dec ps (a, b) = true /\
      forall b', dmem pair_eq_dec ps (a, b') = true -> b' = b).

Lemma dget_app {K V} (eqd : forall a b : K, {a = b} + {a <> b}) (d1 d2 : dict K V) k :
  dget eqd (d1 ++ d2) k = match dget eqd d1 k with Some v => Some v | None => dget eqd d2 k end.
Proof.
  induction d1 as [|[k' v'] d1 IH]; cbn; [reflexivity|]. destruct (eqd k k'); [reflexivity|exact IH].
Qed.

Lemma dfg_step_inv ps g a b v :
  dget pair_eq_dec ps (a, b) = None -> dfg_inv ps g ->
  dfg_inv (ps ++ [((a, b), v)]) (dfg_step g ((a, b), v)).
Proof.
  intros Hnew [I1 [I2 I3]]. destruct g as [followed single]. cbn [fst snd] in *.
  assert (Hps : forall k, dget pair_eq_dec (ps ++ [((a, b), v)]) k =
                          if pair_eq_dec k (a, b) then Some v else dget pair_eq_dec ps k).
  { intros k. rewrite dget_app. cbn. destruct (pair_eq_dec k (a, b)) as [->|Hk].
    - rewrite Hnew. reflexivity.
    - destruct (dget pair_eq_dec ps k); reflexivity. }
  unfold dfg_step. destruct (dget str_eq_dec followed a) as [m|] eqn:Ef.
  - destruct (I1 a m Ef) as [Hm [Hnd Hne]].
    assert (Hmb : dmem str_eq_dec m b = false) by (unfold dmem; rewrite Hm, Hnew; reflexivity).
    rewrite Hmb.
    split; [|split]; cbn [fst snd].
    + intros a' m' H. rewrite dget_dset in H. destruct (str_eq_dec a a') as [<-|Ha].
      * injection H as <-. split; [|split].
        -- intros b'. rewrite dget_dset, Hps. destruct (str_eq_dec b b') as [<-|Hb].
           ++ destruct (pair_eq_dec (a, b) (a, b)); congruence.
           ++ destruct (pair_eq_dec (a, b') (a, b)); [congruence|apply Hm].
        -- apply dset_NoDup; assumption.
        -- destruct m as [|[b0 v0] m0]; cbn; [discriminate|]. destruct (str_eq_dec b b0); discriminate.
      * destruct (I1 a' m' H) as [H1 H2]. split; [|exact H2]. intros b'. rewrite H1, Hps.
        destruct (pair_eq_dec (a', b') (a, b)); [congruence|reflexivity].
    + intros a' H b'. rewrite dget_dset in H. destruct (str_eq_dec a a') as [<-|Ha]; [discriminate|].
      rewrite Hps. destruct (pair_eq_dec (a', b') (a, b)); [congruence|apply I2; assumption].
    + (* a has at least two followers now *)
      assert (Hb0 : exists b0, dmem pair_eq_dec ps (a, b0) = true).
      { destruct m as [|[b0 v0] m0]; [congruence|]. exists b0. unfold dmem. rewrite <- Hm. cbn.
        destruct (str_eq_dec b0 b0); [reflexivity|congruence]. }
      destruct Hb0 as [b0 Hb0].
      assert (Hb0ne : b0 <> b) by (intros ->; unfold dmem in Hb0; rewrite Hnew in Hb0; discriminate).
      assert (Hs : forall y, In y (if str_mem a single then set_remove single a else single) <-> y <> a /\ In y single).
      { intros y. destruct (str_mem a single) eqn:Es.
        - apply set_remove_In.
        - split; [|tauto]. intros Hy. split; [|assumption]. intros ->.
          apply str_mem_In in Hy. congruence. }
      intros a'. rewrite Hs, I3. unfold dmem. split.
      * intros [Hne' [b1 [H1 H2]]]. exists b1. split.
        -- rewrite Hps. destruct (pair_eq_dec (a', b1) (a, b)); [reflexivity|exact H1].
        -- intros b' Hb'. rewrite Hps in Hb'. destruct (pair_eq_dec (a', b') (a, b)) as [E|E]; [congruence|].
           apply H2. exact Hb'.
      * intros [b1 [H1 H2]].
        assert (Hne' : a' <> a).
        { intros ->. assert (E1 : b = b1). { apply H2. rewrite Hps. destruct (pair_eq_dec (a, b) (a, b)); congruence. }
          assert (E2 : b0 = b1). { apply H2. rewrite Hps. unfold dmem in Hb0.
            destruct (pair_eq_dec (a, b0) (a, b)); [congruence|exact Hb0]. }
          congruence. }
        split; [assumption|]. exists b1. split.
        -- rewrite Hps in H1. destruct (pair_eq_dec (a', b1) (a, b)); [congruence|exact H1].
        -- intros b' Hb'. apply H2. rewrite Hps. destruct (pair_eq_dec (a', b') (a, b)); [congruence|exact Hb'].
  - split; [|split]; cbn [fst snd].
    + intros a' m' H. rewrite dget_dset in H. destruct (str_eq_dec a a') as [<-|Ha].
      * injection H as <-. split; [|split; [repeat constructor; intros []|discriminate]].
        intros b'. rewrite Hps. cbn [dget]. destruct (str_eq_dec b' b) as [->|Hb].
        -- destruct (pair_eq_dec (a, b) (a, b)); congruence.
        -- destruct (pair_eq_dec (a, b') (a, b)); [congruence|]. symmetry. apply I2; assumption.
      * destruct (I1 a' m' H) as [H1 H2]. split; [|exact H2]. intros b'. rewrite H1, Hps.
        destruct (pair_eq_dec (a', b') (a, b)); [congruence|reflexivity].
    + intros a' H b'. rewrite dget_dset in H. destruct (str_eq_dec a a') as [<-|Ha]; [discriminate|].
      rewrite Hps. destruct (pair_eq_dec (a', b') (a, b)); [congruence|apply I2; assumption].
    + intros a'. rewrite set_add_In. unfold dmem. split.
      * intros [->|H].
        -- exists b. split; [rewrite Hps; destruct (pair_eq_dec (a, b) (a, b)); congruence|].
           intros b' Hb'. rewrite Hps in Hb'. destruct (pair_eq_dec (a, b') (a, b)); [congruence|].
           rewrite (I2 a Ef b') in Hb'. discriminate.
        -- apply I3 in H. destruct H as [b1 [H1 H2]]. unfold dmem in H1, H2.
           assert (Hne' : a' <> a) by (intros ->; rewrite (I2 a Ef b1) in H1; discriminate).
           exists b1. split.
           ++ rewrite Hps. destruct (pair_eq_dec (a', b1) (a, b)); [congruence|exact H1].
           ++ intros b' Hb'. rewrite Hps in Hb'. destruct (pair_eq_dec (a', b') (a, b)); [congruence|]. apply H2; exact Hb'.
      * intros [b1 [H1 H2]]. destruct (str_eq_dec a' a) as [->|Hne']; [left; reflexivity|right].
        apply I3. exists b1. unfold dmem. split.
        -- rewrite Hps in H1. destruct (pair_eq_dec (a', b1) (a, b)); [congruence|exact H1].
        -- intros b' Hb'. apply H2. rewrite Hps. destruct (pair_eq_dec (a', b') (a, b)); [congruence|exact Hb'].
Qed.

Lemma dfg_fold_inv ps2 ps g :
  NoDup (dkeys (ps ++ ps2)) -> dfg_inv ps g -> dfg_inv (ps ++ ps2) (fold_left dfg_step ps2 g).
Proof.
  revert ps g; induction ps2 as [|[[a b] v] ps2 IH]; intros ps g Hnd Hi; cbn [fold_left].
  - rewrite app_nil_r. exact Hi.
  - replace (ps ++ ((a, b), v) :: ps2) with ((ps ++ [((a, b), v)]) ++ ps2) by (rewrite <- app_assoc; reflexivity).
    apply IH; [rewrite <- app_assoc; exact Hnd|].
    apply dfg_step_inv; [|exact Hi].
    apply dget_None. unfold dkeys in *. rewrite map_app in Hnd. cbn in Hnd.
    apply NoDup_remove_2 in Hnd. intros H; apply Hnd; apply in_or_app; left; exact H.
Qed.

Lemma dfg_inv_init : dfg_inv [] ([], []).
Proof.
  split; [|split]; cbn.
  - discriminate.
  - reflexivity.
  - intros a. split; [intros []|]. intros [b [H _]]. discriminate.
Qed.

Lemma make_dfg_inv ps : NoDup (dkeys ps) ->
  dfg_inv ps (d_followed (make_dfg ps), d_single (make_dfg ps)).
Proof.
  intros H. unfold make_dfg.
  pose proof (dfg_fold_inv ps [] ([], []) H dfg_inv_init) as Hi.
  cbn [app] in Hi. destruct (fold_left dfg_step ps ([], [])) as [f s]. exact Hi.
Qed.

Lemma dfg_followers_proof log ign fake :
  let g := li_dfg (create_log_information log ign fake) in
  (forall a b, match dget str_eq_dec (d_followed g) a with
               | Some m => dget str_eq_dec m b | None => None end
               = dget pair_eq_dec (d_pairs g) (a, b)) /\
  (forall a, In a (dkeys (d_followed g)) <-> exists b, In (a, b) (steps log ign fake)) /\
  (forall a, In a (d_single g) <->
     exists b, In (a, b) (steps log ign fake) /\
               forall b', In (a, b') (steps log ign fake) -> b' = b).
Proof.
  cbn zeta. rewrite info_eq. cbn [li_dfg]. rewrite make_dfg_pairs.
  set (ps := counter pair_eq_dec (steps log ign fake)).
  assert (Hnd : NoDup (dkeys ps)) by apply counter_NoDup.
  destruct (make_dfg_inv ps Hnd) as [I1 [I2 I3]]. cbn [fst snd] in *.
  assert (Hm : forall p, dmem pair_eq_dec ps p = true <-> In p (steps log ign fake)).
  { intros p. rewrite dmem_In. apply counter_keys. }
  split; [|split].
  - intros a b. destruct (dget str_eq_dec (d_followed (make_dfg ps)) a) as [m|] eqn:E.
    + apply I1; exact E.
    + symmetry; apply I2; exact E.
  - intros a. rewrite (dget_Some_key str_eq_dec). split.
    + intros [m Hm']. destruct (I1 a m Hm') as [H1 [_ H3]].
      destruct m as [|[b v] m]; [congruence|]. exists b. apply Hm. unfold dmem. rewrite <- H1. cbn.
      destruct (str_eq_dec b b); [reflexivity|congruence].
    + intros [b Hb]. destruct (dget str_eq_dec (d_followed (make_dfg ps)) a) as [m|] eqn:E; [eauto|].
      apply Hm in Hb. unfold dmem in Hb. rewrite (I2 a E b) in Hb. discriminate.
  - intros a. rewrite I3. split; intros [b [H1 H2]]; exists b; (split; [apply Hm; exact H1|]);
      intros b' Hb'; apply H2, Hm, Hb'.
Qed.

(* -- per trace counts and totals -- *)
Lemma trace_counts_proof log :
  Forall2 (fun t tc => tc_overall tc = length t /\
             (forall n, dget str_eq_dec (tc_counts tc) n =
                        let c := count_occ str_eq_dec t n in if c =? 0 then None else Some c))
          log (calculate_events_in_each_trace log).
Proof.
  unfold calculate_events_in_each_trace. induction log as [|t log IH]; cbn [map]; constructor; [|exact IH].
  cbn [tc_overall tc_counts]. split; [reflexivity|]. intros n. apply (counter_get str_eq_dec t n).
Qed.

Lemma events_count_total_proof {E} (log : list (list E)) :
  calculate_events_count log = length (concat log).
Proof.
  unfold calculate_events_count. induction log as [|t log IH]; [reflexivity|].
  cbn. rewrite app_length, <- IH. reflexivity.
Qed.

(* -- find_all_events_names -- *)
Section FindProofs.
  Context {E : Type}.
  Variable nm : E -> pystr.
  Variable predicate : E -> bool.

  Definition find_inv (seen : list E) (st : list pystr * list pystr) : Prop :=
    (forall n, In n (fst st) <-> exists e, In e seen /\ nm e = n /\ predicate e = false) /\
    (forall n, In n (snd st) <-> (exists e, In e seen /\ nm e = n) /\
                                  forall e, In e seen -> nm e = n -> predicate e = true).

  Lemma find_step_inv seen st e : find_inv seen st -> find_inv (seen ++ [e]) (find_step nm predicate st e).
  Proof.
    destruct st as [nh h]. intros [I1 I2]. cbn [fst snd] in *. unfold find_step.
    assert (Hin : forall x, In x (seen ++ [e]) <-> In x seen \/ x = e)
      by (intros x; rewrite in_app_iff; cbn; intuition congruence).
    destruct (str_mem (nm e) nh) eqn:Em.
    - apply str_mem_In in Em. split; cbn [fst snd]; intros n.
      + rewrite I1. split.
        * intros [x [H1 H2]]. exists x. rewrite Hin. auto.
        * intros [x [H1 [H2 H3]]]. apply Hin in H1. destruct H1 as [H1|H1]; [eauto|].
          rewrite H1 in H2. apply I1 in Em. destruct Em as [y [Hy1 [Hy2 Hy3]]]. exists y.
          split; [exact Hy1|split; [congruence|exact Hy3]].
      + rewrite I2. split.
        * intros [[x [H1 H2]] H3]. split; [exists x; rewrite Hin; auto|].
          intros y Hy1 Hy2. apply Hin in Hy1. destruct Hy1 as [Hy1|Hy1]; [auto|].
          rewrite Hy1 in *. apply I1 in Em. destruct Em as [z [Hz1 [Hz2 Hz3]]].
          rewrite (H3 z Hz1) in Hz3 by congruence. discriminate.
        * intros [[x [H1 H2]] H3]. split.
          -- apply Hin in H1. destruct H1 as [H1|H1]; [eauto|]. apply I1 in Em.
             destruct Em as [z [Hz1 [Hz2 Hz3]]]. exists z. split; [assumption|congruence].
          -- intros y Hy1 Hy2. apply H3; [apply Hin; auto|assumption].
    - assert (Enh : ~ exists x, In x seen /\ nm x = nm e /\ predicate x = false).
      { rewrite <- I1, <- str_mem_In. congruence. }
      destruct (predicate e) eqn:Ep; cbn [negb].
      + split; cbn [fst snd]; intros n.
        * rewrite I1. split; [intros [x [H1 H2]]; exists x; rewrite Hin; auto|].
          intros [x [H1 [H2 H3]]]. apply Hin in H1. destruct H1 as [H1| ->]; [eauto|congruence].
        * rewrite set_add_In, I2. split.
          -- intros [->|[[x [H1 H2]] H3]].
             ++ split; [exists e; rewrite Hin; auto|]. intros y Hy1 Hy2. apply Hin in Hy1.
                destruct Hy1 as [Hy1| ->]; [|assumption]. destruct (predicate y) eqn:Epy; [reflexivity|].
                exfalso; apply Enh; eauto.
             ++ split; [exists x; rewrite Hin; auto|]. intros y Hy1 Hy2. apply Hin in Hy1.
                destruct Hy1 as [Hy1| ->]; auto.
          -- intros [[x [H1 H2]] H3]. destruct (str_eq_dec n (nm e)) as [->|Hn]; [left; reflexivity|right].
             apply Hin in H1. destruct H1 as [H1| ->]; [|congruence]. split; [eauto|].
             intros y Hy1 Hy2. apply H3; [apply Hin; auto|assumption].
      + split; cbn [fst snd]; intros n.
        * rewrite set_add_In, I1. split.
          -- intros [->|[x [H1 H2]]]; [exists e; rewrite Hin; auto|exists x; rewrite Hin; auto].
          -- intros [x [H1 [H2 H3]]]. apply Hin in H1. destruct H1 as [H1|H1]; [eauto|left; congruence].
        * assert (Hh : In n (if str_mem (nm e) h then set_remove h (nm e) else h) <-> n <> nm e /\ In n h).
          { destruct (str_mem (nm e) h) eqn:Eh; [apply set_remove_In|].
            split; [|tauto]. intros Hn. split; [|assumption]. intros ->. apply str_mem_In in Hn. congruence. }
          rewrite Hh, I2. split.
          -- intros [Hne [[x [H1 H2]] H3]]. split; [exists x; rewrite Hin; auto|].
             intros y Hy1 Hy2. apply Hin in Hy1. destruct Hy1 as [Hy1| ->]; [auto|congruence].
          -- intros [[x [H1 H2]] H3].
             assert (Hne : n <> nm e). { intros ->. rewrite (H3 e) in Ep; [discriminate|apply Hin; auto|reflexivity]. }
             split; [assumption|]. apply Hin in H1. destruct H1 as [H1| ->]; [|congruence]. split; [eauto|].
             intros y Hy1 Hy2. apply H3; [apply Hin; auto|assumption].
  Qed.

  Lemma find_fold_inv l seen st : find_inv seen st -> find_inv (seen ++ l) (fold_left (find_step nm predicate) l st).
  Proof.
    revert seen st; induction l as [|e l IH]; intros seen st H; cbn [fold_left].
    - rewrite app_nil_r; exact H.
    - replace (seen ++ e :: l) with ((seen ++ [e]) ++ l) by (rewrite <- app_assoc; reflexivity).
      apply IH, find_step_inv, H.
  Qed.

  Lemma fold_left_concat {A B} (f : A -> B -> A) ls a :
    fold_left (fun st l => fold_left f l st) ls a = fold_left f (concat ls) a.
  Proof. revert a; induction ls as [|l ls IH]; intros a; cbn; [reflexivity|]. rewrite fold_left_app. apply IH. Qed.

  Lemma find_names_proof log n :
    In n (find_all_events_names nm predicate log) <->
    (exists t e, In t log /\ In e t /\ nm e = n) /\
    (forall t e, In t log -> In e t -> nm e = n -> predicate e = true).
  Proof.
    unfold find_all_events_names. rewrite fold_left_concat.
    assert (H0 : find_inv [] ([], [])).
    { split; cbn; intros m; split.
      - intros [].
      - intros (x & [] & _).
      - intros [].
      - intros [(x & [] & _) _]. }
    destruct (find_fold_inv (concat log) [] ([], []) H0) as [_ H2]. cbn [app] in H2. rewrite H2. split.
    - intros [[e [H1 H3]] H4]. apply in_concat in H1. destruct H1 as [t [Ht He]]. split; [eauto|].
      intros t' e' Ht' He' Hn. apply H4; [apply in_concat; eauto|assumption].
    - intros [[t [e [Ht [He Hn]]]] H4]. split; [exists e; split; [apply in_concat; eauto|assumption]|].
      intros e' He' Hn'. apply in_concat in He'. destruct He' as [t' [Ht' He']]. eauto.
  Qed.
End FindProofs.
