From Coq Require Import ZArith QArith Lia Permutation.
From Verif Require Import Py PyFacts InfoModel InfoSpec InfoProofs SplitModel SplitSpec SplitProofs XesModel XesProofs LogModel TextSpec TextProofs ColorModel DrawModel
  HighModel GraphModel GraphProofs ShowModel ShowSpec.
Open Scope nat_scope.

(** ** Order of first appearance *)
Section Once.
  Context {A : Type}.
  Variable dec : forall a b : A, {a = b} + {a <> b}.

  Lemma remove_app' x (l m : list A) : remove dec x (l ++ m) = remove dec x l ++ remove dec x m.
  Proof. induction l as [|y l IH]; cbn; [reflexivity|]. destruct (dec x y); [exact IH|cbn; rewrite IH; reflexivity]. Qed.
  Lemma once_In l x : In x (once dec l) <-> In x l.
  Proof.
    induction l as [|y l IH]; [reflexivity|]. cbn [once In]. split.
    - intros [->|H]; [auto|]. apply in_remove in H. right. apply IH, H.
    - intros [->|H]; [auto|]. destruct (dec y x) as [->|Hn]; [auto|]. right. apply in_in_remove; [congruence|apply IH, H].
  Qed.
  Lemma remove_NoDup x (l : list A) : NoDup l -> NoDup (remove dec x l).
  Proof.
    induction 1 as [|y l Hy Hl IH]; [constructor|]. cbn. destruct (dec x y); [exact IH|]. constructor; [|exact IH].
    intros H. apply in_remove in H. tauto.
  Qed.
  Lemma once_NoDup l : NoDup (once dec l).
  Proof.
    induction l as [|x l IH]; [constructor|]. cbn [once]. constructor; [apply remove_In|apply remove_NoDup, IH].
  Qed.
  Lemma once_snoc l x : once dec (l ++ [x]) = if in_dec dec x l then once dec l else once dec l ++ [x].
  Proof.
    induction l as [|y l IH]; [reflexivity|]. cbn [once app]. rewrite IH. clear IH.
    destruct (in_dec dec x l) as [H|H]; destruct (in_dec dec x (y :: l)) as [H'|H']; try reflexivity.
    - exfalso. apply H'. right. exact H.
    - destruct H' as [->|H']; [|contradiction]. rewrite remove_app'. cbn. destruct (dec x x); [|congruence]. rewrite app_nil_r. reflexivity.
    - rewrite remove_app'. cbn [remove]. destruct (dec y x) as [->|]; [exfalso; apply H'; left; reflexivity|]. reflexivity.
  Qed.

  Lemma dict_ext {V} (d : dict A V) (f : A -> V) : NoDup (dkeys d) -> (forall k, In k (dkeys d) -> dget dec d k = Some (f k)) ->
    d = map (fun k => (k, f k)) (dkeys d).
  Proof.
    induction d as [|[k v] d IH]; intros Hn H; [reflexivity|]. cbn [dkeys map fst] in *. inversion Hn as [|? ? Hk Hd]; subst.
    pose proof (H k (or_introl eq_refl)) as E. cbn [dget] in E. destruct (dec k k); [|congruence]. injection E as ->. f_equal.
    apply IH; [exact Hd|]. intros k' Hk'. rewrite <- (H k' (or_intror Hk')). cbn [dget]. destruct (dec k' k) as [->|]; [contradiction|reflexivity].
  Qed.
  Lemma dkeys_dset_once {V} (d : dict A V) k v : dkeys (dset dec d k v) = if in_dec dec k (dkeys d) then dkeys d else dkeys d ++ [k].
  Proof.
    rewrite dkeys_dset. destruct (dmem dec d k) eqn:E; destruct (in_dec dec k (dkeys d)) as [H|H]; try reflexivity.
    - apply dmem_In in E. contradiction.
    - apply (dmem_In dec) in H. congruence.
  Qed.
  Lemma counter_keys_once l : dkeys (counter dec l) = once dec l.
  Proof.
    induction l as [|x l IH] using rev_ind; [reflexivity|]. unfold counter in *. rewrite fold_left_app. cbn [fold_left]. unfold increase_in_int_map at 1.
    rewrite dkeys_dset_once, IH, once_snoc. destruct (in_dec dec x (once dec l)) as [H|H]; destruct (in_dec dec x l) as [H'|H']; try reflexivity.
    - apply (proj1 (once_In _ _)) in H. contradiction.
    - exfalso. apply H; apply (proj2 (once_In _ _)); exact H'.
  Qed.
  Lemma counter_once l : counter dec l = map (fun k => (k, count_occ dec l k)) (once dec l).
  Proof.
    rewrite <- counter_keys_once. apply dict_ext; [apply counter_NoDup|]. intros k Hk. rewrite counter_get. apply counter_keys in Hk.
    apply (count_occ_In dec) in Hk. destruct (count_occ dec l k =? 0) eqn:E; [apply Nat.eqb_eq in E; lia|reflexivity].
  Qed.
  Lemma once_id l : NoDup l -> once dec l = l.
  Proof.
    induction 1 as [|x l Hx Hl IH]; [reflexivity|]. cbn [once]. rewrite IH. f_equal. apply notin_remove, Hx.
  Qed.
  Lemma once_filter p l : filter p (once dec l) = once dec (filter p l).
  Proof.
    assert (R : forall x m, filter p (remove dec x m) = remove dec x (filter p m)).
    { intros x m. induction m as [|y m IH]; [reflexivity|]. cbn. destruct (dec x y) as [->|Hn]; destruct (p y) eqn:E; cbn; rewrite ?E; try exact IH.
      - destruct (dec y y); [exact IH|congruence].
      - destruct (dec x y); [congruence|]. rewrite IH. reflexivity. }
    induction l as [|x l IH]; [reflexivity|]. cbn [once filter]. rewrite R, IH. destruct (p x) eqn:E; [reflexivity|].
    apply notin_remove. intros H. apply (proj1 (once_In _ _)) in H; apply filter_In in H. destruct H as [_ H]. congruence.
  Qed.
End Once.

Lemma once_map_once {A B} (da : forall a b : A, {a = b} + {a <> b}) (db : forall a b : B, {a = b} + {a <> b}) (f : A -> B) l :
  once db (map f (once da l)) = once db (map f l).
Proof.
  induction l as [|x l IH] using rev_ind; [reflexivity|]. rewrite map_app. cbn [map]. rewrite !once_snoc.
  destruct (in_dec da x l) as [H|H].
  - destruct (in_dec db (f x) (map f l)) as [H'|H']; [exact IH|]. exfalso. apply H', in_map, H.
  - rewrite map_app. cbn [map]. rewrite once_snoc, IH.
    destruct (in_dec db (f x) (map f (once da l))) as [H1|H1]; destruct (in_dec db (f x) (map f l)) as [H2|H2]; try reflexivity; exfalso.
    + apply H2. apply in_map_iff in H1. destruct H1 as (y & E & Hy). apply (proj1 (once_In _ _ _)) in Hy. rewrite <- E. apply in_map, Hy.
    + apply H1. apply in_map_iff in H2. destruct H2 as (y & E & Hy). rewrite <- E. apply in_map, once_In, Hy.
Qed.
Lemma once_map_inj {A B} (da : forall a b : A, {a = b} + {a <> b}) (db : forall a b : B, {a = b} + {a <> b}) (f : A -> B) l :
  (forall x y, In x l -> In y l -> f x = f y -> x = y) -> map f (once da l) = once db (map f l).
Proof.
  intros H. rewrite <- (once_map_once da). symmetry. apply once_id.
  assert (Hi : forall x y, In x (once da l) -> In y (once da l) -> f x = f y -> x = y) by (intros x y Hx Hy; apply H; apply (once_In da); assumption).
  pose proof (once_NoDup da l) as Hn. revert Hi Hn. generalize (once da l). intros m Hi Hn.
  induction Hn as [|x m Hx Hm IH]; [constructor|]. cbn. constructor.
  - intros Hin. apply in_map_iff in Hin. destruct Hin as (y & E & Hy). apply Hx. rewrite (Hi x y); [exact Hy|left; reflexivity|right; exact Hy|symmetry; exact E].
  - apply IH. intros a b Ha Hb. apply Hi; right; assumption.
Qed.

(** ** The graph *)
Definition grp (e : pystr) (ps : dict (pystr * pystr) nat) : dict pystr nat :=
  map (fun kv => (snd (fst kv), snd kv)) (filter (fun kv => if str_eq_dec (fst (fst kv)) e then true else false) ps).
Lemma grp_snoc e ps a b v : grp e (ps ++ [((a, b), v)]) = if str_eq_dec a e then grp e ps ++ [(b, v)] else grp e ps.
Proof.
  unfold grp. rewrite filter_app, map_app. cbn [filter fst]. destruct (str_eq_dec a e); cbn; [reflexivity|apply app_nil_r].
Qed.
Lemma grp_key e ps b : In b (dkeys (grp e ps)) <-> In (e, b) (dkeys ps).
Proof.
  unfold grp, dkeys. rewrite map_map, !in_map_iff. split.
  - intros ([[x y] v] & E & H). apply filter_In in H. cbn [fst snd] in *. destruct H as [H1 H2]. destruct (str_eq_dec x e) as [->|]; [|discriminate].
    subst y. exists ((e, b), v). auto.
  - intros ([[x y] v] & E & H). cbn in E. injection E as -> ->. exists ((e, b), v). split; [reflexivity|]. apply filter_In. split; [exact H|].
    cbn [fst snd]. destruct (str_eq_dec e e); congruence.
Qed.
Lemma dset_new {A V} (dec : forall a b : A, {a = b} + {a <> b}) (d : dict A V) k v : ~ In k (dkeys d) -> dset dec d k v = d ++ [(k, v)].
Proof.
  induction d as [|[k' v'] d IH]; [reflexivity|]. cbn. intros H. destruct (dec k k') as [->|]; [exfalso; apply H; left; reflexivity|].
  rewrite IH; [reflexivity|]. intros Hk. apply H. right. exact Hk.
Qed.
Lemma make_dfg_groups ps : NoDup (dkeys ps) ->
  d_followed (make_dfg ps) = map (fun e => (e, grp e ps)) (once str_eq_dec (map fst (dkeys ps))).
Proof.
  intros Hn. assert (G : dkeys (d_followed (make_dfg ps)) = once str_eq_dec (map fst (dkeys ps)) /\
    forall e, dget str_eq_dec (d_followed (make_dfg ps)) e = if in_dec str_eq_dec e (map fst (dkeys ps)) then Some (grp e ps) else None).
  { unfold make_dfg. assert (E : forall x, d_followed (let '(f, s) := x in mkDfg ps f s) = fst x) by (intros [f s]; reflexivity). rewrite E. clear E.
    induction ps as [|[[a b] v] ps IH] using rev_ind; [split; [reflexivity|intros e; reflexivity]|].
    unfold dkeys in Hn. rewrite map_app in Hn. cbn [map fst] in Hn. pose proof (NoDup_remove_1 _ _ _ Hn) as H1. pose proof (NoDup_remove_2 _ _ _ Hn) as H2.
    rewrite app_nil_r in H1, H2. specialize (IH H1). fold (dkeys ps) in H1, H2. rewrite fold_left_app. cbn [fold_left].
    destruct (fold_left dfg_step ps ([], [])) as [f s]. cbn [fst] in *. destruct IH as [K G].
    assert (KA : map fst (dkeys (ps ++ [((a, b), v)])) = map fst (dkeys ps) ++ [a]) by (unfold dkeys; rewrite !map_app; reflexivity).
    rewrite KA. unfold dfg_step. rewrite (G a), once_snoc.
    destruct (in_dec str_eq_dec a (map fst (dkeys ps))) as [Ha|Ha].
    - assert (Hm : dmem str_eq_dec (grp a ps) b = false).
      { destruct (dmem str_eq_dec (grp a ps) b) eqn:E; [|reflexivity]. exfalso. apply dmem_In, grp_key in E. contradiction. }
      rewrite Hm. cbn [fst]. split.
      + rewrite dkeys_dset_once, K. destruct (in_dec str_eq_dec a _) as [|H]; [reflexivity|]. exfalso. apply H; apply (proj2 (once_In _ _ _)); exact Ha.
      + intros e. rewrite dget_dset, grp_snoc. destruct (str_eq_dec a e) as [->|Hne].
        * destruct (in_dec str_eq_dec e _) as [|H]; [|exfalso; apply H, in_or_app; left; exact Ha].
          f_equal. apply dset_new. intros H. apply grp_key in H. contradiction.
        * rewrite G. destruct (in_dec str_eq_dec e (map fst (dkeys ps))) as [H|H];
            destruct (in_dec str_eq_dec e (map fst (dkeys ps) ++ [a])) as [H'|H']; try reflexivity; exfalso.
          -- apply H', in_or_app. left. exact H.
          -- apply in_app_or in H'. destruct H' as [H'|[H'|[]]]; congruence.
    - cbn [fst]. split.
      + rewrite dkeys_dset_once, K. destruct (in_dec str_eq_dec a _) as [H|]; [|reflexivity]. apply (proj1 (once_In _ _ _)) in H. contradiction.
      + intros e. rewrite dget_dset, grp_snoc. destruct (str_eq_dec a e) as [->|Hne].
        * destruct (in_dec str_eq_dec e _) as [|H]; [|exfalso; apply H, in_or_app; right; left; reflexivity].
          f_equal. assert (Z : grp e ps = []); [|rewrite Z; reflexivity]. destruct (grp e ps) as [|[b' v'] g] eqn:E; [reflexivity|]. exfalso. apply Ha.
          assert (H : In b' (dkeys (grp e ps))) by (rewrite E; left; reflexivity). apply grp_key in H. apply in_map_iff. exists (e, b'). auto.
        * rewrite G. destruct (in_dec str_eq_dec e (map fst (dkeys ps))) as [H|H];
            destruct (in_dec str_eq_dec e (map fst (dkeys ps) ++ [a])) as [H'|H']; try reflexivity; exfalso.
          -- apply H', in_or_app. left. exact H.
          -- apply in_app_or in H'. destruct H' as [H'|[H'|[]]]; congruence. }
  destruct G as [K G]. rewrite <- K. apply (dict_ext str_eq_dec).
  - rewrite K. apply once_NoDup.
  - intros e He. rewrite G. rewrite K in He. apply (proj1 (once_In _ _ _)) in He. destruct (in_dec str_eq_dec e _); [reflexivity|contradiction].
Qed.

Lemma kept_none t : kept None t = t.
Proof. unfold kept. induction t as [|x t IH]; [reflexivity|]. cbn. f_equal. exact IH. Qed.
Lemma steps_plain log : steps log None false = log_steps log.
Proof.
  unfold steps, log_steps. induction log as [|t log IH]; [reflexivity|]. cbn [flat_map]. rewrite IH, kept_none. f_equal. destruct t; reflexivity.
Qed.
Lemma occurrences_plain log : occurrences log None = concat log.
Proof. unfold occurrences. induction log as [|t log IH]; [reflexivity|]. cbn. rewrite kept_none, IH. reflexivity. Qed.

Lemma same_step_spec a b : same_step a b = true <-> a = b.
Proof.
  destruct a as [a1 a2], b as [b1 b2]. unfold same_step. cbn [fst snd]. destruct (str_eq_dec a1 b1), (str_eq_dec a2 b2); cbn; split; congruence.
Qed.
Lemma times_count l p : count_occ pair_eq_dec l p = times (same_step p) l.
Proof.
  unfold times. induction l as [|x l IH]; [reflexivity|]. cbn [count_occ filter]. destruct (pair_eq_dec x p) as [->|H].
  - destruct (same_step p p) eqn:E; [cbn; rewrite IH; reflexivity|]. pose proof (proj2 (same_step_spec p p) eq_refl). congruence.
  - destruct (same_step p x) eqn:E; [apply same_step_spec in E; congruence|exact IH].
Qed.

Lemma followed_eq log : d_followed (li_dfg (create_log_information log None false)) =
  map (fun e => (e, map (fun f => (f, times (same_step (e, f)) (log_steps log))) (once str_eq_dec (followers_of e (log_steps log)))))
      (once str_eq_dec (map fst (log_steps log))).
Proof.
  rewrite info_eq. cbn [li_dfg]. rewrite steps_plain. set (l := log_steps log).
  rewrite make_dfg_groups by apply counter_NoDup. rewrite counter_keys_once, once_map_once. apply map_ext. intros e. f_equal.
  unfold grp. rewrite counter_once. 
  assert (F : forall m, filter (fun kv : pystr * pystr * nat => if str_eq_dec (fst (fst kv)) e then true else false) (map (fun k => (k, count_occ pair_eq_dec l k)) m)
     = map (fun k => (k, count_occ pair_eq_dec l k)) (filter (fun k => if str_eq_dec (fst k) e then true else false) m)).
  { induction m as [|x m IH]; [reflexivity|]. cbn [map filter fst]. destruct (str_eq_dec (fst x) e); cbn [map]; rewrite IH; reflexivity. }
  rewrite F, once_filter, map_map. cbn [fst snd]. unfold followers_of.
  rewrite <- (once_map_inj pair_eq_dec str_eq_dec).
  - rewrite map_map. apply map_ext_in. intros [a b] H. apply (proj1 (once_In _ _ _)) in H; apply filter_In in H. destruct H as [_ H]. cbn [fst snd] in *.
    destruct (str_eq_dec a e) as [->|]; [|discriminate]. rewrite times_count. reflexivity.
  - intros [a b] [a' b'] H H' E. apply filter_In in H, H'. cbn [fst snd] in *. destruct H as [_ H], H' as [_ H'].
    destruct (str_eq_dec a e), (str_eq_dec a' e); congruence.
Qed.

Lemma print_dfg_proof selector log :
  print_dfg selector log =
    (flat_map (fun e =>
       (str "Followers of " ++ e ++ str ":")
       :: map (fun f => f ++ str ": " ++ show_int (Z.of_nat (times (same_step (e, f)) (log_steps log)))) (once str_eq_dec (followers_of e (log_steps log)))
       ++ [[]]) (filter selector (once str_eq_dec (map fst (log_steps log)))), Ok log).
Proof.
  unfold print_dfg. rewrite followed_eq. f_equal. set (l := log_steps log). induction (once str_eq_dec (map fst l)) as [|e r IH]; [reflexivity|].
  cbn [map flat_map filter]. unfold print_followers at 1. rewrite IH. destruct (selector e); [|reflexivity]. cbn [flat_map]. f_equal. f_equal. f_equal. rewrite map_map. reflexivity.
Qed.

Lemma events_count_eq log : li_events_count (create_log_information log None false) = counter str_eq_dec (concat log).
Proof. rewrite info_eq. cbn [li_events_count]. rewrite occurrences_plain. reflexivity. Qed.

Lemma concat_len {A} (l : list (list A)) : list_sum (map (@length A) l) = length (concat l).
Proof. induction l as [|x l IH]; [reflexivity|]. cbn. rewrite app_length, <- IH. reflexivity. Qed.
Lemma print_info_proof log : print_event_log_info log = (info_lines log, Ok log).
Proof.
  unfold print_event_log_info, info_lines, pbind, pprint, show_count, rule. cbn [fst snd app].
  rewrite events_count_eq, concat_len, counter_once, map_length. reflexivity.
Qed.
Lemma before_after_proof op inner log :
  print_before_and_after op inner log =
    match inner log with
    | (out, Ok res) => ([str "Operation " ++ op ++ str " started"] ++ info_lines log ++ out ++ info_lines res
                          ++ [str "Operation " ++ op ++ str " finished"; []], Ok res)
    | (out, Err e) => ([str "Operation " ++ op ++ str " started"] ++ info_lines log ++ out, Err e)
    end.
Proof.
  unfold print_before_and_after. rewrite print_info_proof. unfold pbind, pprint. cbn [fst snd]. destruct (inner log) as [out [res|e]]; cbn [fst snd app].
  - rewrite print_info_proof. cbn [fst snd app]. reflexivity.
  - reflexivity.
Qed.

Lemma save_names_proof log : save_all_event_names log = joined [10%N; 10%N] (once str_eq_dec (concat log)).
Proof. unfold save_all_event_names. rewrite events_count_eq, counter_keys_once. apply str_join_joined. Qed.

(** ** Histograms *)
Section Hist.
  Context {T : Type}.
  Variable names : T -> list pystr.

  Lemma hist_array_snd (gs : list (list T)) : forall c, snd (hist_array gs c) = c + length gs.
  Proof.
    induction gs as [|g gs IH]; intros c; cbn [hist_array]; [cbn; lia|]. specialize (IH (S c)). destruct (hist_array gs (S c)) as [h k]. cbn [snd length] in *. lia.
  Qed.
  Lemma hist_array_range (gs : list (list T)) : forall c x, In x (fst (hist_array gs c)) -> c <= x < c + length gs.
  Proof.
    induction gs as [|g gs IH]; intros c x; cbn [hist_array]; [intros []|]. specialize (IH (S c) x). destruct (hist_array gs (S c)) as [h k]. cbn [fst length] in *.
    intros H. apply in_app_or in H. destruct H as [H|H]; [apply repeat_spec in H; lia|]. apply IH in H. lia.
  Qed.
  Definition at_value (i : nat) (h : list nat) : nat := length (filter (Nat.eqb i) h).
  Lemma at_value_app i h h' : at_value i (h ++ h') = at_value i h + at_value i h'.
  Proof. unfold at_value. rewrite filter_app, app_length. reflexivity. Qed.
  Lemma at_value_repeat i j n : at_value i (repeat j n) = if i =? j then n else 0.
  Proof. unfold at_value. induction n as [|n IH]; cbn; [destruct (i =? j); reflexivity|]. destruct (i =? j); cbn; lia. Qed.
  Lemma at_value_none i h : ~ In i h -> at_value i h = 0.
  Proof.
    unfold at_value. induction h as [|x h IH]; [reflexivity|]. cbn. intros H. destruct (i =? x) eqn:E; [apply Nat.eqb_eq in E; exfalso; apply H; left; congruence|].
    apply IH. intros Hi. apply H. right. exact Hi.
  Qed.
  Lemma hist_counts (gs : list (list T)) : forall c, map (fun i => at_value i (fst (hist_array gs c))) (seq c (length gs)) = map (@length T) gs.
  Proof.
    induction gs as [|g gs IH]; intros c; [reflexivity|]. cbn [hist_array length seq map]. specialize (IH (S c)).
    pose proof (hist_array_range gs (S c)) as R. destruct (hist_array gs (S c)) as [h k]. cbn [fst] in *. f_equal.
    - rewrite at_value_app, at_value_repeat, Nat.eqb_refl, at_value_none; [lia|]. intros H. apply R in H. lia.
    - rewrite <- IH. apply map_ext_in. intros i Hi. apply in_seq in Hi. rewrite at_value_app, at_value_repeat.
      destruct (i =? c) eqn:E; [apply Nat.eqb_eq in E; lia|reflexivity].
  Qed.
  Lemma bars_seq h k : forall a, (forall x, In x h -> x < a + k) -> bars (seq a (S k)) h = map (fun i => at_value i h) (seq a k).
  Proof.
    induction k as [|k IH]; intros a H; [reflexivity|]. change (seq a (S (S k))) with (a :: S a :: seq (S (S a)) k). cbn [bars].
    change (S a :: seq (S (S a)) k) with (seq (S a) (S k)). cbn [seq map]. f_equal.
    - unfold at_value. f_equal. apply filter_ext_in. intros x Hx. apply H in Hx. destruct k as [|k]; cbn [seq].
      + destruct (a =? x) eqn:E; [apply Nat.eqb_eq in E; subst; rewrite Nat.leb_refl; cbn; apply Nat.leb_le; lia|]. apply Nat.eqb_neq in E.
        destruct (a <=? x) eqn:E1; [|reflexivity]. apply Nat.leb_le in E1. lia.
      + destruct (a =? x) eqn:E; [apply Nat.eqb_eq in E; subst; rewrite Nat.leb_refl; cbn [andb]; apply Nat.ltb_lt; lia|]. apply Nat.eqb_neq in E.
        destruct (a <=? x) eqn:E1; [|reflexivity]. apply Nat.leb_le in E1. cbn [andb]. apply Nat.ltb_ge. lia.
    - apply IH. intros x Hx. apply H in Hx. lia.
  Qed.
  Lemma paint_groups (gs : list (list T)) : do_paint_hist (hist_array gs 1) = map (@length T) gs.
  Proof.
    unfold do_paint_hist. rewrite hist_array_snd. cbn [Nat.add]. rewrite bars_seq; [apply hist_counts|]. intros x Hx. apply hist_array_range in Hx. lia.
  Qed.

  Lemma hist_bars_groups (log : list T) gs : split_log_by_traces names log = Ok gs ->
    exists hc, create_array_for_hist names log = Ok hc /\ do_paint_hist hc = map (@length T) gs.
  Proof.
    intros E. exists (hist_array gs 1). unfold create_array_for_hist. rewrite E. split; [reflexivity|apply paint_groups].
  Qed.
  Lemma perm_times {A} (p : A -> bool) l l' : Permutation l l' -> times p l = times p l'.
  Proof.
    unfold times. induction 1 as [|x l l' _ IH|x y l|l m n _ IH1 _ IH2]; cbn; [reflexivity| | |congruence].
    - destruct (p x); cbn; rewrite IH; reflexivity.
    - destruct (p x), (p y); reflexivity.
  Qed.
  Lemma times_app {A} (p : A -> bool) l l' : times p (l ++ l') = times p l + times p l'.
  Proof. unfold times. rewrite filter_app, app_length. reflexivity. Qed.
  Lemma times_all {A} (p : A -> bool) l : (forall x, In x l -> p x = true) -> times p l = length l.
  Proof.
    unfold times. induction l as [|x l IH]; [reflexivity|]. intros H. cbn. rewrite (H x (or_introl eq_refl)). cbn. f_equal. apply IH. intros y Hy. apply H. right. exact Hy.
  Qed.
  Lemma times_none {A} (p : A -> bool) l : (forall x, In x l -> p x = false) -> times p l = 0.
  Proof.
    unfold times. induction l as [|x l IH]; [reflexivity|]. intros H. cbn. rewrite (H x (or_introl eq_refl)). apply IH. intros y Hy. apply H. right. exact Hy.
  Qed.
  Lemma histogram_proof (log : list T) : collision_free_names names log ->
    exists hc vs, create_array_for_hist names log = Ok hc /\ NoDup vs /\ (forall v, In v vs <-> exists t, In t log /\ names t = v) /\
      do_paint_hist hc = map (fun v => times (is_variant names v) log) vs.
  Proof.
    intros Hc. destruct (split_partition_proof names log) as (gs & E & Hp & Hg). destruct (hist_bars_groups log gs E) as (hc & E1 & E2).
    pose proof (fun i j gi gj t u => split_variants_proof names log gs Hc E i j gi gj t u) as V.
    set (rep := fun g : list T => match g with t :: _ => names t | [] => [] end).
    assert (R : forall i g, nth_error gs i = Some g -> exists t, In t g /\ rep g = names t).
    { intros i g Hi. apply nth_error_In in Hi. destruct (Hg g Hi) as [Hn _]. destruct g as [|t g]; [congruence|]. exists t. split; [left; reflexivity|reflexivity]. }
    exists hc, (map rep gs). split; [exact E1|]. split; [|split].
    - apply NoDup_nth_error. intros i j Hi Ej. rewrite map_length in Hi.
      destruct (nth_error gs i) as [gi|] eqn:Gi; [|apply nth_error_None in Gi; lia]. rewrite (map_nth_error rep _ _ Gi) in Ej.
      destruct (nth_error gs j) as [gj|] eqn:Gj.
      + rewrite (map_nth_error rep _ _ Gj) in Ej. destruct (R _ _ Gi) as (t & Ht & Et). destruct (R _ _ Gj) as (u & Hu & Eu).
        apply (proj2 (V i j gi gj t u Gi Gj Ht Hu)). congruence.
      + exfalso. apply nth_error_None in Gj. assert (nth_error (map rep gs) j = None) by (apply nth_error_None; rewrite map_length; exact Gj). congruence.
    - intros v. rewrite in_map_iff. split.
      + intros (g & <- & Hin). apply In_nth_error in Hin. destruct Hin as [i Hi]. destruct (R _ _ Hi) as (t & Ht & Et). exists t. split; [|symmetry; exact Et].
        apply (Permutation_in _ Hp). apply in_concat. exists g. split; [apply nth_error_In in Hi; exact Hi|exact Ht].
      + intros (t & Ht & <-). apply (Permutation_in _ (Permutation_sym Hp)) in Ht. apply in_concat in Ht. destruct Ht as (g & Hin & Ht).
        exists g. split; [|exact Hin]. apply In_nth_error in Hin. destruct Hin as [i Hi]. destruct (R _ _ Hi) as (u & Hu & ->).
        apply (proj1 (V i i g g u t Hi Hi Hu Ht)). reflexivity.
    - rewrite E2, map_map. apply map_ext_in. intros g Hin. apply In_nth_error in Hin. destruct Hin as [i Hi].
      rewrite <- (perm_times _ _ _ Hp). destruct (R _ _ Hi) as (u & Hu & Er). rewrite Er. clear Er.
      destruct (nth_error_split _ _ Hi) as (l1 & l2 & El & Hl). rewrite El, concat_app. cbn [concat]. rewrite !times_app.
      rewrite (times_all _ g), (times_none _ (concat l1)), (times_none _ (concat l2)); [lia| | |].
      + intros x Hx. apply in_concat in Hx. destruct Hx as (g' & Hg' & Hx). apply In_nth_error in Hg'. destruct Hg' as [j Hj].
        unfold is_variant. destruct (list_eq_dec str_eq_dec (names x) (names u)) as [Ex|]; [|reflexivity]. exfalso.
        assert (Gj : nth_error gs (S (i + j)) = Some g'). { rewrite El, nth_error_app2 by lia. replace (S (i + j) - length l1) with (S j) by lia. exact Hj. }
        pose proof (proj2 (V _ _ _ _ x u Gj Hi Hx Hu) Ex). lia.
      + intros x Hx. apply in_concat in Hx. destruct Hx as (g' & Hg' & Hx). apply In_nth_error in Hg'. destruct Hg' as [j Hj].
        unfold is_variant. destruct (list_eq_dec str_eq_dec (names x) (names u)) as [Ex|]; [|reflexivity]. exfalso.
        assert (Hlt : j < length l1) by (apply nth_error_Some; congruence).
        assert (Gj : nth_error gs j = Some g') by (rewrite El, nth_error_app1 by lia; exact Hj).
        pose proof (proj2 (V _ _ _ _ x u Gj Hi Hx Hu) Ex). lia.
      + intros x Hx. unfold is_variant. destruct (list_eq_dec str_eq_dec (names x) (names u)) as [|Hne]; [reflexivity|]. exfalso. apply Hne.
        apply (proj1 (V i i g g x u Hi Hi Hx Hu)). reflexivity.
  Qed.

  (** ** Plots of several logs *)
  Lemma mapM_app {A B} (f : A -> result B) l l' : mapM f (l ++ l') = bind (mapM f l) (fun a => bind (mapM f l') (fun b => Ok (a ++ b))).
  Proof.
    induction l as [|x l IH]; cbn; [destruct (mapM f l'); reflexivity|]. destruct (f x); [|reflexivity]. cbn. rewrite IH.
    destruct (mapM f l); [|reflexivity]. cbn. destruct (mapM f l'); reflexivity.
  Qed.
  Definition cell_at (logs : list (list T)) (ns : list pystr) (side i : nat) : result cell := plot_cell names logs ns (i / side) (i mod side) i.
  Lemma plot_row_eq logs ns side row k : forall col i, col + k = side -> i = row * side + col ->
    plot_row names logs ns row k col i =
      bind (mapM (cell_at logs ns side) (seq i (Nat.min k (length logs - i)))) (fun cs => Ok (cs, i + Nat.min k (length logs - i))).
  Proof.
    induction k as [|k IH]; intros col i Hk Hi; [cbn; rewrite Nat.add_0_r; reflexivity|]. cbn [plot_row]. destruct (length logs <=? i) eqn:E.
    - apply Nat.leb_le in E. replace (length logs - i) with 0 by lia. rewrite Nat.min_0_r. cbn. rewrite Nat.add_0_r. reflexivity.
    - apply Nat.leb_gt in E. replace (Nat.min (S k) (length logs - i)) with (S (Nat.min k (length logs - S i))) by lia. cbn [seq mapM].
      rewrite (IH (S col) (S i)) by lia. assert (Hd : i / side = row /\ i mod side = col).
      { rewrite Hi. split; [rewrite Nat.div_add_l by lia; rewrite Nat.div_small by lia; lia|].
        rewrite Nat.add_comm, Nat.mod_add by lia. apply Nat.mod_small. lia. }
      unfold cell_at at 2. destruct Hd as [-> ->]. destruct (plot_cell names logs ns row col i); [|reflexivity]. cbn [bind].
      destruct (mapM _ _); cbn [bind]; [|reflexivity]. do 2 f_equal. lia.
  Qed.
  Lemma plot_rows_eq logs ns side k : forall row i, 0 < side -> i = Nat.min (row * side) (length logs) ->
    plot_rows names logs ns side k row i = mapM (cell_at logs ns side) (seq i (Nat.min (k * side) (length logs - i))).
  Proof.
    induction k as [|k IH]; intros row i Hs Hi; [reflexivity|]. cbn [plot_rows]. destruct (le_lt_dec (length logs) i) as [Hle|Hlt].
    - replace (length logs - i) with 0 by lia. rewrite Nat.min_0_r. cbn [seq mapM].
      assert (R : plot_row names logs ns row side 0 i = Ok ([], i)).
      { destruct side as [|s]; [reflexivity|]. cbn [plot_row]. destruct (length logs <=? i) eqn:E; [reflexivity|]. apply Nat.leb_gt in E. lia. }
      rewrite R. cbn [bind]. rewrite (IH (S row) i Hs). 2: { cbn [Nat.mul]. lia. } replace (length logs - i) with 0 by lia. rewrite Nat.min_0_r. reflexivity.
    - assert (Hi' : i = row * side) by lia. rewrite (plot_row_eq logs ns side row side 0 i) by lia.
      replace (Nat.min (S k * side) (length logs - i)) with (Nat.min side (length logs - i) + Nat.min (k * side) (length logs - (i + Nat.min side (length logs - i)))) by (cbn [Nat.mul]; lia).
      rewrite seq_app, mapM_app. destruct (mapM (cell_at logs ns side) (seq i _)) as [cs|e]; [|reflexivity]. cbn [bind].
      rewrite IH; [|exact Hs|cbn [Nat.mul]; lia]. destruct (mapM _ _); reflexivity.
  Qed.
  Lemma plot_eq logs ns : 2 <= length logs ->
    plot_logs_traces_histograms names logs ns = mapM (cell_at logs ns (Nat.sqrt_up (length logs))) (seq 0 (length logs)).
  Proof.
    intros Hn. unfold plot_logs_traces_histograms. set (s := Nat.sqrt_up (length logs)).
    assert (Hs : 2 <= s). { unfold s. change 2 with (Nat.sqrt_up 2) at 1. apply Nat.sqrt_up_le_mono, Hn. }
    pose proof (Nat.sqrt_sqrt_up_spec (length logs)) as HH. cbn zeta in *.
    assert (Hq : length logs <= s * s). { unfold s. destruct (Nat.sqrt_up_spec (length logs) ltac:(lia)) as [_ H]. exact H. }
    destruct (s =? 0) eqn:E0; [apply Nat.eqb_eq in E0; lia|]. destruct (s =? 1) eqn:E1; [apply Nat.eqb_eq in E1; lia|].
    rewrite plot_rows_eq by lia. do 2 f_equal. lia.
  Qed.
  Lemma basename_file p : forall cur f, ~ In 47%N f -> (p = f -> basename p cur = cur ++ f) /\ (forall d, p = d ++ 47%N :: f -> basename p cur = f).
  Proof.
    induction p as [|c p IH]; intros cur f Hf; cbn [basename].
    - split; [intros <-; rewrite app_nil_r; reflexivity|]. intros [|x d]; discriminate.
    - split.
      + intros <-. destruct (N.eqb c 47) eqn:E; [apply N.eqb_eq in E; exfalso; apply Hf; left; exact E|].
        destruct (IH (cur ++ [c]) p) as [H _]; [intros Hi; apply Hf; right; exact Hi|]. rewrite H by reflexivity. rewrite <- app_assoc. reflexivity.
      + intros [|x d] E; injection E as -> ->.
        * rewrite N.eqb_refl. destruct (IH [] f Hf) as [H _]. apply H. reflexivity.
        * destruct (N.eqb x 47); [destruct (IH [] f Hf) as [_ H]|destruct (IH (cur ++ [x]) f Hf) as [_ H]]; apply (H d); reflexivity.
  Qed.
  Lemma basename_spec p f : file_of p f -> basename p [] = f.
  Proof.
    intros [Hf H]. destruct (basename_file p [] f Hf) as [H1 H2]. destruct H as [H|[d H]]; [apply H1, H|apply (H2 d), H].
  Qed.
End Hist.

(** ** The legend of a canvas *)
Definition last_color (n : pystr) (cs : list colored) : option pystr :=
  fold_left (fun r c => if str_eq_dec (c_name c) n then Some (color_hex (c_color c)) else r) cs None.
Lemma legend_dict cs :
  let d := fold_left (fun d c => dset str_eq_dec d (c_name c) (color_hex (c_color c))) cs [] in
  dkeys d = once str_eq_dec (map c_name cs) /\ forall n, dget str_eq_dec d n = last_color n cs.
Proof.
  cbn zeta. unfold last_color. induction cs as [|c cs IH] using rev_ind; [split; reflexivity|]. rewrite fold_left_app. cbn [fold_left]. destruct IH as [K G]. split.
  - rewrite dkeys_dset_once, K, map_app. cbn [map]. rewrite once_snoc.
    destruct (in_dec str_eq_dec (c_name c) (once str_eq_dec (map c_name cs))) as [H|H]; destruct (in_dec str_eq_dec (c_name c) (map c_name cs)) as [H'|H']; try reflexivity; exfalso.
    + apply (proj1 (once_In _ _ _)) in H. contradiction.
    + apply H. apply (proj2 (once_In _ _ _)). exact H'.
  - intros n. rewrite dget_dset, fold_left_app. cbn [fold_left]. rewrite G. reflexivity.
Qed.
Lemma draw_legend_nth x b d : forall k i n c, nth_error d i = Some (n, c) ->
  nth_error (draw_legend x b d k) i =
    Some (let y := (b + 20 * inject_Z (Z.of_nat (k + i)))%Q in mkEntry x y 40 20 c n (x + 40 + 10) (y + 20 / (14 # 10))).
Proof.
  induction d as [|[n' c'] d IH]; intros k [|i] n c H; try discriminate; cbn [nth_error draw_legend] in *.
  - injection H as -> ->. rewrite Nat.add_0_r. reflexivity.
  - rewrite (IH (S k) i n c H). replace (S k + i) with (k + S i) by lia. reflexivity.
Qed.
Lemma draw_legend_length x b d : forall k, length (draw_legend x b d k) = length d.
Proof. induction d as [|[n' c'] d IH]; intros k; [reflexivity|]. cbn. rewrite IH. reflexivity. Qed.
Lemma dget_nth (d : dict pystr pystr) i n c : NoDup (dkeys d) -> nth_error d i = Some (n, c) -> nth_error (dkeys d) i = Some n /\ dget str_eq_dec d n = Some c.
Proof.
  intros Hn H. split; [unfold dkeys; apply (map_nth_error fst _ _ H)|]. apply (In_dget str_eq_dec _ _ _ Hn). apply nth_error_In in H. exact H.
Qed.

Lemma legend_proof css titled ws hs : css <> [] ->
  exists rows width height legend entries,
    draw_canvas css titled true ws hs = Ok (rows, width, height, legend) /\
    canvas_legend css titled ws hs = Ok (inject_Z (Z.of_N width), inject_Z (Z.of_N height), entries) /\
    map e_name entries = once str_eq_dec (map c_name (concat css)) /\
    (forall i e, nth_error entries i = Some e ->
       Some (e_color e) = last_color (e_name e) (concat css) /\ (e_w e == 40)%Q /\ (e_h e == 20)%Q /\
       (e_x e == inject_Z (Z.of_N width) / 3)%Q /\
       (e_y e == inject_Z (Z.of_N (N.of_nat (length css) * hs + 21 + (if titled then 20 else 10)) + 20 * Z.of_nat i))%Q /\
       (e_y e + e_h e <= inject_Z (Z.of_N height))%Q) /\
    (forall i j a b, i < j -> nth_error entries i = Some a -> nth_error entries j = Some b -> (e_y a + e_h a <= e_y b)%Q) /\
    (forall e, In e entries -> ((e_x e + e_w e <= inject_Z (Z.of_N width))%Q <-> (60 <= width)%N)).
Proof.
  intros Hc. unfold draw_canvas, canvas_legend, draw_canvas. destruct css as [|c0 css0]; [congruence|]. remember (c0 :: css0) as css eqn:Ecss.
  assert (Ew : exists w, canvas_width css = Ok w) by (rewrite Ecss; cbn [canvas_width]; eauto). destruct Ew as [w Ew]. rewrite Ew. cbn [bind].
  destruct (legend_dict (concat css)) as [K G]. set (d := fold_left (fun (d : dict pystr pystr) (c : colored) => dset str_eq_dec d (c_name c) (color_hex (c_color c))) (concat css) []) in *.
  set (before := (N.of_nat (length css) * hs + 21 + (if titled then 20 else 10))%N).
  set (W := (w * ws + 21 + 15)%N). set (H := (before + N.of_nat (length d) * 20)%N).
  set (es := draw_legend (inject_Z (Z.of_N W) / 3)
               (inject_Z (Z.of_N H) - 20 * inject_Z (Z.of_nat (length d))) d 0).
  assert (Hn : NoDup (dkeys d)) by (rewrite K; apply once_NoDup).
  assert (Hb : (inject_Z (Z.of_N H) - 20 * inject_Z (Z.of_nat (length d)) == inject_Z (Z.of_N before))%Q).
  { unfold H. unfold Qminus. change 20%Q with (inject_Z 20). rewrite <- inject_Z_mult, <- inject_Z_opp, <- inject_Z_plus. replace (Z.of_N (before + N.of_nat (length d) * 20) + - (20 * Z.of_nat (length d)))%Z with (Z.of_N before) by lia. reflexivity. }
  assert (Nth : forall i e, nth_error es i = Some e -> i < length d /\ exists n c, nth_error d i = Some (n, c) /\
     e = (let y := (inject_Z (Z.of_N H) - 20 * inject_Z (Z.of_nat (length d)) + 20 * inject_Z (Z.of_nat i))%Q in
          mkEntry (inject_Z (Z.of_N W) / 3) y 40 20 c n (inject_Z (Z.of_N W) / 3 + 40 + 10) (y + 20 / (14 # 10)))).
  { intros i e He. assert (Hi : i < length d). { unfold es in He. rewrite <- (draw_legend_length (inject_Z (Z.of_N W) / 3) (inject_Z (Z.of_N H) - 20 * inject_Z (Z.of_nat (length d))) d 0). apply nth_error_Some. congruence. }
    split; [exact Hi|]. destruct (nth_error d i) as [[n c]|] eqn:E; [|apply nth_error_None in E; lia]. exists n, c. split; [reflexivity|].
    unfold es in He. rewrite (draw_legend_nth _ _ _ _ _ _ _ E) in He. cbn [Nat.add] in He. injection He as <-. reflexivity. }
  assert (Y : forall i e, nth_error es i = Some e -> (e_y e == inject_Z (Z.of_N before + 20 * Z.of_nat i))%Q).
  { intros i e He. destruct (Nth i e He) as (_ & n & c & _ & ->). cbn [e_y]. rewrite Hb. change 20%Q with (inject_Z 20). rewrite <- inject_Z_mult, <- inject_Z_plus. reflexivity. }
  exists (canvas_rows ws hs css (if titled then 20%N else 10%N)), W, H, d, es.
  split; [reflexivity|]. split; [reflexivity|]. split; [|split; [|split]].
  - rewrite <- K. unfold es, dkeys. generalize (inject_Z (Z.of_N W) / 3)%Q as xx, (inject_Z (Z.of_N H) - 20 * inject_Z (Z.of_nat (length d)))%Q as yy, 0. clear.
    intros xx yy. induction d as [|[n c] r IH]; intros k; [reflexivity|]. cbn [draw_legend map e_name fst]. f_equal. apply IH.
  - intros i e He. destruct (Nth i e He) as (Hi & n & c & Hd & Ee). destruct (dget_nth d i n c Hn Hd) as [_ Hg].
    assert (Hh : e_h e = 20%Q) by (rewrite Ee; reflexivity). split; [rewrite Ee; cbn [e_color e_name]; rewrite <- G; symmetry; exact Hg|].
    split; [rewrite Ee; reflexivity|]. split; [rewrite Hh; reflexivity|]. split; [rewrite Ee; reflexivity|]. split; [apply (Y i e He)|].
    rewrite Hh, (Y i e He). change 20%Q with (inject_Z 20). rewrite <- inject_Z_plus, <- Zle_Qle. unfold H. lia.
  - intros i j a b Hij Ha Hb'. destruct (Nth i a Ha) as (_ & n & c & _ & Ee). assert (Hh : e_h a = 20%Q) by (rewrite Ee; reflexivity).
    rewrite Hh, (Y i a Ha), (Y j b Hb'). change 20%Q with (inject_Z 20). rewrite <- inject_Z_plus, <- Zle_Qle. lia.
  - intros e He. apply In_nth_error in He. destruct He as [i He]. destruct (Nth i e He) as (_ & n & c & _ & ->). cbn [e_x e_w].
    unfold Qle, Qplus, Qdiv, Qmult, Qinv, inject_Z. cbn [Qnum Qden]. split; intros Hle; lia.
Qed.

(** ** Saving *)
Lemma from_slash_nil p : from_slash p = [] <-> ~ In 47%N p.
Proof.
  induction p as [|c p IH]; cbn; [tauto|]. destruct (N.eqb c 47) eqn:E.
  - apply N.eqb_eq in E. split; [discriminate|]. intros H. exfalso. apply H. left. exact E.
  - apply N.eqb_neq in E. rewrite IH. split; [intros H [H'|H']; auto|tauto].
Qed.
Lemma dirname_nil p : dirname p = [] <-> ~ In 47%N p.
Proof.
  unfold dirname. rewrite (in_rev p). rewrite <- from_slash_nil. destruct (drop_slashes (from_slash (rev p))) as [|c r] eqn:E.
  - split; intros H; [|rewrite H; reflexivity]. apply (f_equal (@rev N)) in H. rewrite rev_involutive in H. exact H.
  - split; intros H; [|rewrite H in E; discriminate]. cbn in H. destruct (rev r); discriminate.
Qed.
Lemma save_xes_proof xes p files :
  (In 47%N p -> exists files', save_event_log_to_xes (Ok xes) p files = Ok files' /\ dget str_eq_dec files' p = Some xes /\
      forall q, q <> p -> dget str_eq_dec files' q = dget str_eq_dec files q) /\
  (~ In 47%N p -> exists e, save_event_log_to_xes (Ok xes) p files = Err e) /\
  (forall e, save_event_log_to_xes (Err e) p files = Err e).
Proof.
  unfold save_event_log_to_xes. cbn [bind]. split; [|split; [|reflexivity]]; intros H.
  - destruct (dirname p) as [|c r] eqn:E; [apply dirname_nil in E; contradiction|]. eexists. split; [reflexivity|].
    split; [rewrite dget_dset; destruct (str_eq_dec p p); congruence|]. intros q Hq. rewrite dget_dset. destruct (str_eq_dec p q); congruence.
  - apply dirname_nil in H. rewrite H. eauto.
Qed.

Lemma last_color_spec n cs h : last_color n cs = Some h -> exists c, last_named n cs c /\ color_hex (c_color c) = h.
Proof.
  unfold last_color. induction cs as [|c cs IH] using rev_ind; [discriminate|]. rewrite fold_left_app. cbn [fold_left].
  destruct (str_eq_dec (c_name c) n) as [E|E].
  - intros H. injection H as <-. exists c. split; [|reflexivity]. exists cs, []. split; [reflexivity|]. split; [exact E|intros c' []].
  - intros H. destruct (IH H) as (c1 & (pre & post & Ec & E1 & E2) & E3). exists c1. split; [|exact E3]. exists pre, (post ++ [c]). split; [rewrite Ec, <- app_assoc; reflexivity|].
    split; [exact E1|]. intros c' Hc'. apply in_app_or in Hc'. destruct Hc' as [Hc'|[<-|[]]]; [apply E2, Hc'|exact E].
Qed.
Lemma plot_proof {T} (names : T -> list pystr) logs ns : 2 <= length logs ->
  let side := Nat.sqrt_up (length logs) in
  (length logs <= length ns ->
   exists cells, plot_logs_traces_histograms names logs ns = Ok cells /\ length cells = length logs /\
     forall i log n f, nth_error logs i = Some log -> nth_error ns i = Some n -> file_of n f ->
       exists hc, create_array_for_hist names log = Ok hc /\
         nth_error cells i = Some (mkCell (i / side) (i mod side) (fst (splitext f)) (do_paint_hist hc))) /\
  (length ns < length logs -> plot_logs_traces_histograms names logs ns = Err IndexError).
Proof.
  intros Hn side. rewrite (plot_eq names logs ns Hn). fold side.
  assert (OkH : forall log, exists hc, create_array_for_hist names log = Ok hc).
  { intros log. unfold create_array_for_hist. destruct (split_partition_proof names log) as (gs & E & _). rewrite E. cbn. eauto. }
  assert (C : forall i log n, nth_error logs i = Some log -> nth_error ns i = Some n -> exists hc, create_array_for_hist names log = Ok hc /\
     cell_at names logs ns side i = Ok (mkCell (i / side) (i mod side) (fst (splitext (basename n []))) (do_paint_hist hc))).
  { intros i log n Hl Hs. destruct (OkH log) as [hc E]. exists hc. split; [exact E|]. unfold cell_at, plot_cell. rewrite Hl, Hs, E. reflexivity. }
  split.
  - intros Hle. assert (M : forall m, m <= length logs -> exists cells, mapM (cell_at names logs ns side) (seq 0 m) = Ok cells /\ length cells = m /\
      forall i, i < m -> exists c, nth_error cells i = Some c /\ cell_at names logs ns side i = Ok c).
    { induction m as [|m IH]; intros Hm; [exists []; split; [reflexivity|split; [reflexivity|lia]]|]. destruct IH as (cells & E1 & E2 & E3); [lia|].
      destruct (nth_error logs m) as [log|] eqn:El; [|apply nth_error_None in El; lia]. destruct (nth_error ns m) as [n|] eqn:En; [|apply nth_error_None in En; lia].
      destruct (C m log n El En) as (hc & _ & Ec). eexists (cells ++ [_]). rewrite seq_S, mapM_app, E1. cbn [bind mapM Nat.add]. rewrite Ec. cbn [bind]. split; [reflexivity|].
      split; [rewrite app_length, E2; cbn; lia|]. intros i Hi. destruct (Nat.eq_dec i m) as [->|Hne].
      - eexists. split; [rewrite nth_error_app2 by lia; rewrite E2, Nat.sub_diag; reflexivity|exact Ec].
      - destruct (E3 i) as (c & Hc & Hc'); [lia|]. exists c. split; [rewrite nth_error_app1 by lia; exact Hc|exact Hc']. }
    destruct (M (length logs) (Nat.le_refl _)) as (cells & E1 & E2 & E3). exists cells. split; [exact E1|]. split; [exact E2|].
    intros i log n f Hl Hs Hf. destruct (C i log n Hl Hs) as (hc & Eh & Ec). exists hc. split; [exact Eh|]. destruct (E3 i) as (c & Hc & Hc').
    { apply nth_error_Some. congruence. }
    rewrite Hc. rewrite (basename_spec n f Hf) in Ec. congruence.
  - intros Hlt. replace (length logs) with (length ns + S (length logs - S (length ns))) by lia. rewrite seq_app, mapM_app.
    assert (M : forall m, m <= length ns -> exists cells, mapM (cell_at names logs ns side) (seq 0 m) = Ok cells).
    { induction m as [|m IH]; intros Hm; [eexists; reflexivity|]. destruct IH as (cells & E1); [lia|].
      destruct (nth_error logs m) as [log|] eqn:El; [|apply nth_error_None in El; lia]. destruct (nth_error ns m) as [n|] eqn:En; [|apply nth_error_None in En; lia].
      destruct (C m log n El En) as (hc & _ & Ec). eexists. rewrite seq_S, mapM_app, E1. cbn [bind mapM Nat.add]. rewrite Ec. cbn [bind]. reflexivity. }
    destruct (M (length ns) (Nat.le_refl _)) as [cells E1]. rewrite E1. cbn [bind Nat.add seq mapM]. unfold cell_at at 1, plot_cell.
    assert (En : nth_error ns (length ns) = None) by (apply nth_error_None; lia). rewrite En. reflexivity.
Qed.
