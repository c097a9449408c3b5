From Coq Require Import QArith Permutation Sorted.
From Verif Require Import Py PyFacts XesModel WireModel ConstModel ClientModel BackendModel DecodeModel DrawModel ColorModel ColorProofs PictureProofs ResultSpec ResultProofs ClusterModel ClusterSpec.
Close Scope Q_scope.

Lemma F2_length {A B} (R : A -> B -> Prop) l1 l2 : Forall2 R l1 l2 -> length l1 = length l2.
Proof. induction 1; cbn; congruence. Qed.

(** * Colours *)

Lemma random_color_fresh rng f used : forall n c m, random_color rng f used n = Ok (c, m) -> ~ In c used /\ exists k, c = rng k.
Proof.
  induction f as [|f IH]; intros n c m H; [discriminate|]. cbn [random_color] in H. cbv zeta in H.
  destruct (in_dec rcolor_eq_dec (rng n) used); [eapply IH; exact H|]. injection H as <- _. split; [assumption|]. exists n. reflexivity.
Qed.

Definition extends (h h' : holder) : Prop :=
  forall m d, dget str_eq_dec (ho_names h) m = Some d -> dget str_eq_dec (ho_names h') m = Some d.

Lemma get_or_create_spec rng f h name c h' :
  sound_holder h -> get_or_create rng f h name = Ok (c, h') ->
  sound_holder h' /\ extends h h' /\ dget str_eq_dec (ho_names h') name = Some c /\
  ((forall n, byte_color (rng n)) -> byte_holder h -> byte_holder h').
Proof.
  intros [Hi Hu] H. unfold get_or_create in H.
  destruct (dget str_eq_dec (ho_names h) name) as [e|] eqn:E.
  { injection H as <- <-. split; [split; assumption|]. split; [intros m d Hd; exact Hd|]. split; [exact E|auto]. }
  destruct (random_color rng f (ho_used h) (ho_drawn h)) as [[c' n]|] eqn:R; [|discriminate]. cbn [bind] in H. injection H as <- <-.
  apply random_color_fresh in R. destruct R as [Hf [k Hk]]. cbn [ho_names ho_used].
  assert (Hfresh : forall n, dget str_eq_dec (ho_names h) n <> Some c') by (intros n0 X; apply Hf; eapply Hu; exact X).
  split; [split|split; [|split]].
  - cbn [ho_names]. intros a b d Ha Hb. rewrite dget_dset in Ha, Hb.
    destruct (str_eq_dec name a), (str_eq_dec name b); subst; try reflexivity.
    + injection Ha as <-. exfalso. eapply Hfresh; exact Hb.
    + injection Hb as <-. exfalso. eapply Hfresh; exact Ha.
    + eapply Hi; eassumption.
  - cbn [ho_names ho_used]. intros a d Ha. rewrite dget_dset in Ha. destruct (str_eq_dec name a); [injection Ha as <-; left; reflexivity|right; eapply Hu; exact Ha].
  - intros m d Hd. cbn [ho_names]. rewrite dget_dset. destruct (str_eq_dec name m); [subst; congruence|exact Hd].
  - apply dget_dset_same.
  - intros Hr Hb a d Ha. cbn [ho_names] in Ha. rewrite dget_dset in Ha. destruct (str_eq_dec name a); [injection Ha as <-; rewrite Hk; apply Hr|eapply Hb; exact Ha].
Qed.

Lemma colors_vector_spec rng f labels : forall h cs h', sound_holder h -> create_colors_vector rng f labels h = Ok (cs, h') ->
  sound_holder h' /\ extends h h' /\ Forall2 (fun l c => dget str_eq_dec (ho_names h') (create_cluster_name l) = Some c) labels cs /\
  ((forall n, byte_color (rng n)) -> byte_holder h -> byte_holder h').
Proof.
  induction labels as [|x r IH]; intros h cs h' Hs H; cbn [create_colors_vector] in H.
  { injection H as <- <-. split; [exact Hs|]. split; [intros m d Hd; exact Hd|]. split; [constructor|auto]. }
  destruct (get_or_create rng f h (create_cluster_name x)) as [[c h1]|] eqn:G; [|discriminate]. cbn [bind] in H.
  destruct (create_colors_vector rng f r h1) as [[cs' h2]|] eqn:V; [|discriminate]. cbn [bind] in H. injection H as <- <-.
  destruct (get_or_create_spec _ _ _ _ _ _ Hs G) as (S1 & E1 & D1 & B1).
  destruct (IH _ _ _ S1 V) as (S2 & E2 & F2 & B2).
  split; [exact S2|split; [|split]].
  - intros m d Hd. apply E2, E1, Hd.
  - constructor; [apply E2, D1|exact F2].
  - auto.
Qed.

Lemma cluster_name_inj a b : create_cluster_name a = create_cluster_name b -> a = b.
Proof. unfold create_cluster_name. intros H. apply app_inv_head in H. apply show_int_inj in H. lia. Qed.

Lemma colors_proof rng f labels h cs h' :
  sound_holder h -> create_colors_vector rng f labels h = Ok (cs, h') ->
  length cs = length labels /\ sound_holder h' /\
  (forall i j a b c d, nth_error labels i = Some a -> nth_error labels j = Some b -> nth_error cs i = Some c -> nth_error cs j = Some d -> (c = d <-> a = b)) /\
  (forall i a c, nth_error labels i = Some a -> nth_error cs i = Some c ->
     forall name, dget str_eq_dec (ho_names h) name = Some c <-> (name = create_cluster_name a /\ dget str_eq_dec (ho_names h) name <> None)).
Proof.
  intros Hs H. destruct (colors_vector_spec _ _ _ _ _ _ Hs H) as (S' & E & F & _).
  assert (L : length labels = length cs) by (eapply F2_length; exact F).
  assert (N : forall i a c, nth_error labels i = Some a -> nth_error cs i = Some c -> dget str_eq_dec (ho_names h') (create_cluster_name a) = Some c).
  { clear -F. induction F as [|x y l1 l2 Hxy F IH]; intros [|i] a c Ha Hc; try discriminate.
    - cbn in Ha, Hc. injection Ha as <-. injection Hc as <-. exact Hxy.
    - eapply IH; eassumption. }
  split; [symmetry; exact L|]. split; [exact S'|]. split.
  - intros i j a b c d Ha Hb Hc Hd. pose proof (N _ _ _ Ha Hc) as X. pose proof (N _ _ _ Hb Hd) as Y. split.
    + intros <-. apply cluster_name_inj. eapply (proj1 S'); eassumption.
    + intros <-. congruence.
  - intros i a c Ha Hc name. pose proof (N _ _ _ Ha Hc) as X. split.
    + intros Hn. split; [|congruence]. eapply (proj1 S'); [apply E; exact Hn|exact X].
    + intros [-> Hn]. destruct (dget str_eq_dec (ho_names h) (create_cluster_name a)) as [d|] eqn:D; [|contradiction].
      apply E in D. congruence.
Qed.

(** * Logs *)

Definition pick_members {T} (pairs : list (T * N)) (k : N) : list T :=
  flat_map (fun xk => if (snd xk =? k)%N then [fst xk] else []) pairs.

Lemma push_fold {T} (pairs : list (T * N)) : forall d k,
  dget N.eq_dec (fold_left (fun d p => dpush N.eq_dec d (snd p) (fst p)) pairs d) k =
  match dget N.eq_dec d k, pick_members pairs k with
  | Some l, m => Some (l ++ m)
  | None, [] => None
  | None, m => Some m
  end.
Proof.
  induction pairs as [|[x k0] r IH]; intros d k; cbn [fold_left pick_members flat_map fst snd].
  - destruct (dget N.eq_dec d k); [rewrite app_nil_r|]; reflexivity.
  - rewrite IH. rewrite dget_dpush. destruct (N.eq_dec k0 k) as [->|n].
    + rewrite N.eqb_refl. cbn [app]. fold (pick_members r k). destruct (dget N.eq_dec d k); [rewrite <- app_assoc|]; reflexivity.
    + assert ((k0 =? k)%N = false) as -> by (apply N.eqb_neq; exact n). cbn [app]. reflexivity.
Qed.
Lemma push_fold_nodup {T} (pairs : list (T * N)) : forall d, NoDup (dkeys d) ->
  NoDup (dkeys (fold_left (fun d p => dpush N.eq_dec d (snd p) (fst p)) pairs d)).
Proof. induction pairs as [|[x k] r IH]; intros d H; cbn [fold_left]; [exact H|]. apply IH, dpush_NoDup, H. Qed.
Lemma dvalues_keys {K V} (eqd : forall a b : K, {a = b} + {a <> b}) (d : dict K V) (dflt : V) : NoDup (dkeys d) ->
  dvalues d = map (fun k => match dget eqd d k with Some v => v | None => dflt end) (dkeys d).
Proof.
  induction d as [|[k v] d IH]; intros H; [reflexivity|]. cbn [dvalues dkeys map fst snd dget]. inversion H as [|? ? Hn Hd]; subst.
  destruct (eqd k k) as [_|?]; [|congruence]. f_equal. change (map snd d) with (dvalues d). rewrite (IH Hd). apply map_ext_in. intros k' Hk'.
  destruct (eqd k' k) as [->|_]; [contradiction|]. reflexivity.
Qed.
Lemma pick_members_nil {T} (pairs : list (T * N)) k : pick_members pairs k = [] <-> ~ In k (map snd pairs).
Proof.
  induction pairs as [|[x k0] r IH]; cbn [pick_members flat_map map fst snd In]; [tauto|]. fold (pick_members r k).
  destruct (N.eqb_spec k0 k) as [->|n].
  - split; [discriminate|]. intros H. exfalso. apply H. left. reflexivity.
  - cbn [app]. rewrite IH. split; [intros H [X|X]; [contradiction|apply H, X]|intros H X; apply H; right; exact X].
Qed.

Lemma push_fold_keys {T} (pairs : list (T * N)) k :
  In k (dkeys (fold_left (fun d p => dpush N.eq_dec d (snd p) (fst p)) pairs [])) <-> In k (map snd pairs).
Proof.
  rewrite (dget_Some_key N.eq_dec). rewrite push_fold. cbn [dget].
  destruct (pick_members pairs k) eqn:E.
  - apply pick_members_nil in E. split; [intros [v X]; discriminate|contradiction].
  - split; [|intros _; eauto]. intros _. destruct (in_dec N.eq_dec k (map snd pairs)) as [|n]; [assumption|].
    apply pick_members_nil in n. congruence.
Qed.

Lemma logs_proof {T} (order : list (list T) -> list (list T)) traces labels :
  (forall l, Permutation (order l) l) -> length traces = length labels ->
  exists ks, NoDup ks /\ (forall k, In k ks <-> In k labels) /\
    Permutation (cluster_logs order traces labels) (map (members traces labels) ks).
Proof.
  intros Ho Hl. unfold cluster_logs.
  set (d := fold_left (fun new_logs tl => dpush N.eq_dec new_logs (snd tl) (fst tl)) (combine traces labels) []).
  assert (Hn : NoDup (dkeys d)) by (apply push_fold_nodup; constructor).
  exists (dkeys d). split; [exact Hn|]. split.
  - intros k. unfold d. rewrite (push_fold_keys (combine traces labels) k).
    assert (map snd (combine traces labels) = labels) as ->; [|reflexivity].
    clear -Hl. revert labels Hl. induction traces as [|t r IH]; intros [|k l] H; try discriminate; [reflexivity|]. cbn. f_equal. apply IH. cbn in H. congruence.
  - rewrite Ho. rewrite (dvalues_keys N.eq_dec d [] Hn). apply Permutation_refl'. apply map_ext_in. intros k Hk.
    unfold d. rewrite push_fold. cbn [dget]. change (pick_members (combine traces labels) k) with (members traces labels k).
    destruct (members traces labels k); reflexivity.
Qed.

Lemma members_partition {T} (l : list T) : forall labels ks, length l = length labels -> NoDup ks -> (forall k, In k labels -> In k ks) ->
  Permutation (concat (map (members l labels) ks)) l.
Proof.
  induction l as [|x l IH]; intros [|k0 labels] ks Hlen Hn Hin; try discriminate.
  - assert (H : forall ks, concat (map (members (@nil T) []) ks) = []) by (induction ks0; cbn; auto). rewrite H. constructor.
  - cbn in Hlen. injection Hlen as Hlen.
    assert (E : Permutation (concat (map (members (x :: l) (k0 :: labels)) ks)) ((if in_dec N.eq_dec k0 ks then [x] else []) ++ concat (map (members l labels) ks))).
    { clear -Hn. induction ks as [|k ks IHk]; [reflexivity|]. inversion Hn as [|? ? Hk Hn']; subst. specialize (IHk Hn').
      cbn [map concat]. unfold members at 1. cbn [combine flat_map fst snd]. fold (members l labels k).
      destruct (N.eqb_spec k0 k) as [->|n].
      - destruct (in_dec N.eq_dec k (k :: ks)) as [_|X]; [|exfalso; apply X; left; reflexivity].
        destruct (in_dec N.eq_dec k ks) as [X|_]; [contradiction|]. cbn [app] in *. constructor. apply Permutation_app_head. exact IHk.
      - cbn [app]. destruct (in_dec N.eq_dec k0 (k :: ks)) as [X|X], (in_dec N.eq_dec k0 ks) as [Y|Y].
        + rewrite IHk. rewrite Permutation_app_comm. cbn [app]. constructor. rewrite Permutation_app_comm. reflexivity.
        + destruct X as [X|X]; [congruence|contradiction].
        + exfalso. apply X. right. exact Y.
        + cbn [app] in *. apply Permutation_app_head. exact IHk. }
    rewrite E. destruct (in_dec N.eq_dec k0 ks) as [_|X]; [|exfalso; apply X, Hin; left; reflexivity].
    cbn [app]. constructor. apply IH; [exact Hlen|exact Hn|]. intros k Hk. apply Hin. right. exact Hk.
Qed.

Lemma dbscan_label_inj a b : dbscan_label a = dbscan_label b <-> a = b.
Proof. destruct a, b; cbn; split; intros H; try congruence; try lia. f_equal. lia. Qed.

Lemma members_found {T} (traces : list T) : forall found k, members traces (map dbscan_label found) (dbscan_label k) = found_in traces found k.
Proof.
  unfold members, found_in. induction traces as [|x r IH]; intros [|f found] k; try reflexivity. cbn [map combine flat_map fst snd]. rewrite IH. f_equal.
  destruct (option_eq_dec N.eq_dec f k) as [->|n]; [rewrite N.eqb_refl; reflexivity|]. destruct (N.eqb_spec (dbscan_label f) (dbscan_label k)) as [E|_]; [|reflexivity].
  apply dbscan_label_inj in E. contradiction.
Qed.
Definition unlabel (n : N) : option N := if (n =? 0)%N then None else Some (n - 1)%N.
Lemma unlabel_label k : unlabel (dbscan_label k) = k.
Proof. destruct k as [x|]; cbn [dbscan_label]; unfold unlabel; [|reflexivity]. destruct (N.eqb_spec (x + 1) 0); [lia|]. f_equal. lia. Qed.
Lemma label_unlabel n : dbscan_label (unlabel n) = n.
Proof. unfold unlabel. destruct (N.eqb_spec n 0) as [->|]; cbn [dbscan_label]; lia. Qed.

Lemma found_logs_proof {T} (order : list (list T) -> list (list T)) traces found :
  (forall l, Permutation (order l) l) -> length traces = length found ->
  exists ks, NoDup ks /\ (forall k, In k ks <-> In k found) /\
    Permutation (cluster_logs order traces (map dbscan_label found)) (map (found_in traces found) ks) /\
    Permutation (concat (cluster_logs order traces (map dbscan_label found))) traces.
Proof.
  intros Ho Hl. destruct (logs_proof order traces (map dbscan_label found) Ho) as (ks & Hn & Hin & Hp); [rewrite map_length; exact Hl|].
  exists (map unlabel ks). split; [|split; [|split]].
  - clear -Hn. induction Hn as [|x l Hx Hn IH]; cbn [map]; constructor; [|exact IH]. rewrite in_map_iff. intros (y & E & Hy). apply Hx.
    rewrite <- (label_unlabel x), <- E, label_unlabel. exact Hy.
  - intros k. rewrite in_map_iff. split.
    + intros (n & <- & Hk). apply Hin, in_map_iff in Hk. destruct Hk as (f & <- & Hf). rewrite unlabel_label. exact Hf.
    + intros Hk. exists (dbscan_label k). split; [apply unlabel_label|]. apply Hin, in_map, Hk.
  - rewrite map_map. etransitivity; [exact Hp|]. apply Permutation_refl'. apply map_ext. intros n. rewrite <- (label_unlabel n) at 1. apply members_found.
  - assert (P : Permutation (concat (cluster_logs order traces (map dbscan_label found))) (concat (map (members traces (map dbscan_label found)) ks))).
    { clear -Hp. induction Hp; cbn [concat]; auto; try (etransitivity; eassumption).
      - apply Permutation_app_head. assumption.
      - rewrite !app_assoc. apply Permutation_app_tail, Permutation_app_comm. }
    etransitivity; [exact P|]. apply members_partition; [rewrite map_length; exact Hl|exact Hn|intros k; apply Hin].
Qed.

(** * Grid search *)

Section Grid.
  Variable score : nat -> Q.
  Definition leader (lo hi : nat) (metric : Q) (best : option nat) : Prop :=
    match best with
    | None => metric = (-1)%Q /\ forall j, lo <= j < hi -> (score j <= -1)%Q
    | Some k => metric = score k /\ lo <= k < hi /\ ((-1)%Q < score k)%Q /\
                forall j, lo <= j < hi -> (score j <= score k)%Q /\ (j < k -> (score j < score k)%Q)
    end.
  Lemma grid_search_spec steps : forall c best metric, 2 <= c -> leader 2 c metric best ->
    exists b m, grid_search (fun k => Some (score k)) steps c best metric = Ok b /\ leader 2 (c + steps) m b.
  Proof.
    induction steps as [|n IH]; intros c best metric Hc Hl; cbn [grid_search].
    - exists best, metric. rewrite Nat.add_0_r. auto.
    - replace (c + S n) with (S c + n) by lia. destruct (Qle_bool (score c) metric) eqn:E.
      + apply IH; [lia|]. apply Qle_bool_iff in E. destruct best as [k|]; cbn [leader] in *.
        * destruct Hl as (-> & Hk & Hm & Hj). repeat split; auto; try lia.
          -- intros. destruct (Nat.eq_dec j c) as [->|]; [exact E|apply Hj; lia].
          -- intros. apply Hj; lia.
        * destruct Hl as (-> & Hj). split; [reflexivity|]. intros j Hj'. destruct (Nat.eq_dec j c) as [->|]; [exact E|apply Hj; lia].
      + apply IH; [lia|]. assert (Hlt : (metric < score c)%Q).
        { apply Qnot_le_lt. intros X. apply Qle_bool_iff in X. congruence. }
        cbn [leader]. destruct best as [k|]; cbn [leader] in Hl.
        * destruct Hl as (-> & Hk & Hm & Hj). split; [reflexivity|]. split; [lia|]. split; [eapply Qlt_trans; eassumption|].
          intros j Hj'. split.
          -- destruct (Nat.eq_dec j c) as [->|]; [apply Qle_refl|]. apply Qlt_le_weak. eapply Qle_lt_trans; [apply Hj; lia|exact Hlt].
          -- intros. eapply Qle_lt_trans; [apply Hj; lia|exact Hlt].
        * destruct Hl as (-> & Hj). split; [reflexivity|]. split; [lia|]. split; [exact Hlt|].
          intros j Hj'. split.
          -- destruct (Nat.eq_dec j c) as [->|]; [apply Qle_refl|]. apply Qlt_le_weak. eapply Qle_lt_trans; [apply Hj; lia|exact Hlt].
          -- intros. eapply Qle_lt_trans; [apply Hj; lia|exact Hlt].
  Qed.
  Lemma best_unique objects k k' : best_count score objects k -> best_count score objects k' -> k = k'.
  Proof.
    intros (H1 & _ & H2) (H3 & _ & H4). destruct (lt_eq_lt_dec k k') as [[L|E]|L]; [|exact E|].
    - exfalso. apply (Qlt_not_le _ _ (proj2 (H4 k ltac:(lia)) L)). apply H2. lia.
    - exfalso. apply (Qlt_not_le _ _ (proj2 (H2 k' ltac:(lia)) L)). apply H4. lia.
  Qed.
  Lemma grid_proof objects :
    (forall k, best_clusters_count (fun k => Some (score k)) objects = Ok k <-> best_count score objects k) /\
    ((exists j, 2 <= j < objects /\ ((-1)%Q < score j)%Q) -> exists k, best_clusters_count (fun k => Some (score k)) objects = Ok k).
  Proof.
    destruct (grid_search_spec (objects - 2) 2 None (-1)%Q (le_n 2)) as (b & m & Hg & Hl).
    { split; [reflexivity|]. intros j Hj. lia. }
    assert (Hb : forall k, b = Some k -> best_count score objects k).
    { intros k ->. destruct Hl as (_ & Hk & Hm & Hj). split; [lia|]. split; [exact Hm|]. intros j Hj'. apply Hj. lia. }
    assert (Hx : (exists j, 2 <= j < objects /\ ((-1)%Q < score j)%Q) -> b <> None).
    { intros (j & Hj & Hs) ->. cbn [leader] in Hl. apply (Qlt_not_le _ _ Hs). apply Hl. lia. }
    unfold best_clusters_count. rewrite Hg. cbn [bind]. split.
    - intros k. destruct b as [k0|].
      + split; [intros H; injection H as <-; apply Hb; reflexivity|]. intros H. f_equal. eapply best_unique; [apply Hb; reflexivity|exact H].
      + split; [discriminate|]. intros (H1 & H2 & _). exfalso. apply Hx; [exists k; auto|reflexivity].
    - intros H. destruct b as [k|]; [eauto|]. exfalso. apply Hx; [exact H|reflexivity].
  Qed.
End Grid.

(** * Merging *)

Lemma combine_nth {A B} (l : list A) : forall (m : list B) a b, In (a, b) (combine l m) <-> exists i, nth_error l i = Some a /\ nth_error m i = Some b.
Proof.
  induction l as [|x l IH]; intros [|y m] a b; cbn [combine In].
  - split; [tauto|]. intros ([|i] & H & _); discriminate.
  - split; [tauto|]. intros ([|i] & H & _); discriminate.
  - split; [tauto|]. intros ([|i] & _ & H); discriminate.
  - rewrite IH. split.
    + intros [H|(i & H1 & H2)]; [injection H as -> ->; exists 0; auto|exists (S i); auto].
    + intros ([|i] & H1 & H2); [left; cbn in H1, H2; congruence|right; exists i; auto].
Qed.

Lemma labelled_In processed labels a k : In (a, k) (labelled processed labels) <->
  exists i, nth_error processed i = Some a /\ nth_error labels i = Some (Some k).
Proof.
  rewrite <- combine_nth. unfold labelled. rewrite in_flat_map. split.
  - intros ([b [l|]] & H & Hx); cbn in Hx; [|contradiction]. destruct Hx as [Hx|[]]. injection Hx as -> ->. exact H.
  - intros H. exists (a, Some k). split; [exact H|left; reflexivity].
Qed.

Lemma in_cluster_labelled processed labels n k : in_cluster processed labels n k <-> exists a, In (a, k) (labelled processed labels) /\ cn_name a = n.
Proof.
  unfold in_cluster. split.
  - intros (i & a & H1 & H2 & H3). exists a. split; [|exact H2]. apply labelled_In. eauto.
  - intros (a & H & E). apply labelled_In in H. destruct H as (i & H1 & H2). exists i, a. auto.
Qed.

Definition count_label (k : N) (labels : list (option N)) : nat :=
  length (filter (fun o => match o with Some x => (x =? k)%N | None => false end) labels).
Lemma count_pos k labels : 1 <= count_label k labels <-> exists i, nth_error labels i = Some (Some k).
Proof.
  induction labels as [|o r IH]; unfold count_label in *; cbn [filter length].
  - split; [lia|]. intros ([|i] & H); discriminate.
  - destruct o as [x|]; [destruct (N.eqb_spec x k) as [->|n]|]; cbn [length].
    + split; [intros _; exists 0; reflexivity|lia].
    + rewrite IH. split; [intros (i & H); exists (S i); exact H|]. intros ([|i] & H); [cbn in H; congruence|exists i; exact H].
    + rewrite IH. split; [intros (i & H); exists (S i); exact H|]. intros ([|i] & H); [cbn in H; congruence|exists i; exact H].
Qed.
Lemma count_crowded k labels : 2 <= count_label k labels <-> crowded labels k.
Proof.
  unfold crowded. induction labels as [|o r IH]; unfold count_label in *; cbn [filter length].
  - split; [lia|]. intros ([|i] & j & _ & H & _); discriminate.
  - assert (Skip : (exists i j, i < j /\ nth_error r i = Some (Some k) /\ nth_error r j = Some (Some k)) -> exists i j, i < j /\ nth_error (o :: r) i = Some (Some k) /\ nth_error (o :: r) j = Some (Some k)).
    { intros (i & j & Hij & H1 & H2). exists (S i), (S j). repeat split; auto; lia. }
    assert (Other : o <> Some k -> (exists i j, i < j /\ nth_error (o :: r) i = Some (Some k) /\ nth_error (o :: r) j = Some (Some k)) -> exists i j, i < j /\ nth_error r i = Some (Some k) /\ nth_error r j = Some (Some k)).
    { intros Hk (i & j & Hij & H1 & H2). destruct i; [cbn in H1; congruence|]. destruct j; [lia|]. exists i, j. repeat split; auto; lia. }
    destruct o as [x|]; [destruct (N.eqb_spec x k) as [->|n]|]; cbn [length].
    + split.
      * intros H. assert (H1 : 1 <= count_label k r) by (unfold count_label; lia). apply count_pos in H1. destruct H1 as (j & Hj). exists 0, (S j). repeat split; auto; lia.
      * intros (i & j & Hij & H1 & H2). destruct j as [|j]; [lia|]. cbn in H2.
        assert (H3 : 1 <= count_label k r) by (apply count_pos; exists j; exact H2). unfold count_label in H3. lia.
    + rewrite IH. split; [exact Skip|apply Other; congruence].
    + rewrite IH. split; [exact Skip|apply Other; congruence].
Qed.
Lemma members_count k : forall processed labels, length processed = length labels ->
  length (pick_members (labelled processed labels) k) = count_label k labels.
Proof.
  unfold labelled, count_label. induction processed as [|a r IH]; intros [|o l] H; try discriminate; [reflexivity|].
  cbn in H. injection H as H. cbn [combine flat_map fst snd filter]. unfold pick_members. rewrite flat_map_app. fold (pick_members (labelled r l) k). rewrite app_length.
  destruct o as [x|]; cbn [flat_map fst snd].
  - destruct (x =? k)%N; cbn [app length]; rewrite <- IH by exact H; reflexivity.
  - cbn [length]. rewrite <- IH by exact H. reflexivity.
Qed.

Lemma fold_dset_get {V} (l : list (pystr * V)) : forall d n, NoDup (map fst l) ->
  dget str_eq_dec (fold_left (fun d p => dset str_eq_dec d (fst p) (snd p)) l d) n =
  match find (fun p => str_eqb (fst p) n) l with Some p => Some (snd p) | None => dget str_eq_dec d n end.
Proof.
  induction l as [|[k v] l IH]; intros d n H; [reflexivity|]. cbn [map fst] in H. inversion H as [|? ? Hk Hn]; subst.
  cbn [fold_left find fst snd]. rewrite IH by exact Hn. destruct (str_eqb k n) eqn:E.
  - apply str_eqb_eq in E. subst n. destruct (find _ l) as [p|] eqn:F.
    + apply find_some in F. destruct F as [Fi Fe]. apply str_eqb_eq in Fe. exfalso. apply Hk. rewrite <- Fe. apply in_map. exact Fi.
    + apply dget_dset_same.
  - apply str_eqb_neq in E. rewrite dget_dset_other by exact E. reflexivity.
Qed.

Lemma NoDup_map_filterish {A B} (f : A -> B) (processed : list A) : forall (labels : list (option N)), NoDup (map f processed) ->
  NoDup (map (fun p => f (fst p)) (flat_map (fun al => match snd al with Some l => [(fst al, l)] | None => [] end) (combine processed labels))).
Proof.
  induction processed as [|a r IH]; intros [|o l] H; cbn [combine flat_map map]; try constructor.
  cbn [map] in H. inversion H as [|? ? Ha Hn]; subst. rewrite map_app. destruct o as [x|]; cbn [snd fst map app]; [|apply IH; exact Hn].
  constructor; [|apply IH; exact Hn]. rewrite in_map_iff. intros ([b k] & E & Hb). apply in_flat_map in Hb. destruct Hb as ([c [y|]] & Hc & Hx); cbn in Hx; [|contradiction].
  destruct Hx as [Hx|[]]. injection Hx as -> ->. cbn in E. apply Ha. rewrite <- E. apply in_map. apply in_combine_l in Hc. exact Hc.
Qed.

Lemma names_get processed labels n k : NoDup (map cn_name processed) ->
  (dget str_eq_dec (names_to_clusters (labelled processed labels)) n = Some k <-> in_cluster processed labels n k).
Proof.
  intros H. rewrite in_cluster_labelled. unfold names_to_clusters.
  set (pairs := labelled processed labels).
  assert (Hn : NoDup (map (fun p : cnode * N => cn_name (fst p)) pairs)) by (apply NoDup_map_filterish; exact H).
  assert (E : forall d, fold_left (fun d p => dset str_eq_dec d (cn_name (fst p)) (snd p)) pairs d =
    fold_left (fun d p => dset str_eq_dec d (fst p) (snd p)) (map (fun p : cnode * N => (cn_name (fst p), snd p)) pairs) d).
  { clear. induction pairs as [|p r IH]; intros d; [reflexivity|]. cbn [fold_left map]. apply IH. }
  rewrite E. rewrite fold_dset_get by (rewrite map_map; exact Hn). cbn [dget].
  destruct (find _ _) as [p|] eqn:F.
  - apply find_some in F. destruct F as [Fi Fe]. apply str_eqb_eq in Fe. apply in_map_iff in Fi. destruct Fi as ([a x] & <- & Fi). cbn [fst snd] in *.
    split.
    + intros X. injection X as <-. exists a. auto.
    + intros (b & Hb & Eb). f_equal. assert (a = b /\ x = k) as [_ ?]; [|assumption].
      clear -Hn Fi Hb Fe Eb. revert Hn Fi Hb. induction pairs as [|q r IH]; intros Hn Fi Hb; [destruct Fi|].
      cbn [map] in Hn. inversion Hn as [|? ? Hq Hr]; subst. destruct Fi as [Fi|Fi], Hb as [Hb|Hb].
      * split; congruence.
      * exfalso. apply Hq. rewrite Fi. cbn [fst]. rewrite <- Eb. apply (in_map (fun p : cnode * N => cn_name (fst p))) in Hb. exact Hb.
      * exfalso. apply Hq. rewrite Hb. cbn [fst]. rewrite Eb. apply (in_map (fun p : cnode * N => cn_name (fst p))) in Fi. exact Fi.
      * apply IH; assumption.
  - split; [discriminate|]. intros (b & Hb & Eb). exfalso. eapply find_none in F; [|apply in_map; exact Hb]. cbn [fst] in F. apply str_eqb_neq in F. contradiction.
Qed.

Lemma nodes_loop lens (clusters : dict N (list cnode)) : forall acc nodes, NoDup (dkeys clusters) ->
  (forall k, In k (dkeys clusters) -> dget N.eq_dec acc k = None) ->
  loopM (fun d ca => if length (snd ca) <? 2 then Ok d
                     else bind (cluster_node lens (fst ca) (snd ca)) (fun n => Ok (dset N.eq_dec d (fst ca) n))) clusters acc = Ok nodes ->
  forall k, dget N.eq_dec nodes k =
    match dget N.eq_dec clusters k with
    | Some l => if length l <? 2 then None else match cluster_node lens k l with Ok n => Some n | Err _ => None end
    | None => dget N.eq_dec acc k
    end.
Proof.
  induction clusters as [|[k0 l0] r IH]; intros acc nodes Hn Ha H k.
  - cbn in H. injection H as <-. reflexivity.
  - rewrite loopM_cons in H. cbn [fst snd] in H. cbn [dkeys map fst] in Hn. inversion Hn as [|? ? Hk Hn']; subst.
    cbn [dget]. destruct (length l0 <? 2) eqn:L.
    + cbn [bind] in H. rewrite (IH _ _ Hn' (fun k' Hk' => Ha k' (or_intror Hk')) H k). destruct (N.eq_dec k k0) as [->|n].
      * assert (dget N.eq_dec r k0 = None) as -> by (apply dget_None; exact Hk). rewrite L. apply Ha. left. reflexivity.
      * reflexivity.
    + destruct (cluster_node lens k0 l0) as [n0|] eqn:C; [|discriminate]. cbn [bind] in H.
      assert (Ha' : forall k', In k' (dkeys r) -> dget N.eq_dec (dset N.eq_dec acc k0 n0) k' = None).
      { intros k' Hk'. rewrite dget_dset. destruct (N.eq_dec k0 k') as [->|]; [contradiction|]. apply Ha. right. exact Hk'. }
      rewrite (IH _ _ Hn' Ha' H k). rewrite dget_dset. destruct (N.eq_dec k k0) as [->|n].
      * assert (dget N.eq_dec r k0 = None) as -> by (apply dget_None; exact Hk). rewrite L, C. destruct (N.eq_dec k0 k0); congruence.
      * destruct (N.eq_dec k0 k); [congruence|]. reflexivity.
Qed.

Lemma cluster_node_name lens k l n : cluster_node lens k l = Ok n ->
  cn_name n = create_cluster_name k /\ cn_repeat n = None /\ (forall c, In c (cn_classes n) <-> exists a, In a l /\ In c (cn_classes a)) /\
  (forall a r, l = a :: r -> cn_level n = cn_level a).
Proof.
  unfold cluster_node. destruct (mapM _ l); [|discriminate]. cbn [bind]. intros H. injection H as <-. cbn [cn_name cn_repeat cn_classes cn_level].
  split; [reflexivity|]. split; [reflexivity|]. split.
  - intros c. rewrite nodup_In, in_flat_map. reflexivity.
  - intros b r ->. reflexivity.
Qed.

Section Merge.
  Variable lens : list nat.
  Variable processed : list cnode.
  Variable labels : list (option N).
  Hypothesis Hnames : NoDup (map cn_name processed).
  Hypothesis Hlen : length processed = length labels.
  Let pairs := labelled processed labels.
  Let names := names_to_clusters pairs.
  Variable nodes : dict N cnode.
  Hypothesis Hnodes : new_cluster_activities lens (clusters_to_activities pairs) = Ok nodes.

  Lemma clusters_get k : dget N.eq_dec (clusters_to_activities pairs) k = match pick_members pairs k with [] => None | m => Some m end.
  Proof. unfold clusters_to_activities. rewrite push_fold. reflexivity. Qed.
  Lemma nodes_get k : (crowded labels k -> exists n, dget N.eq_dec nodes k = Some n /\ cluster_node lens k (pick_members pairs k) = Ok n) /\
    (~ crowded labels k -> dget N.eq_dec nodes k = None).
  Proof.
    assert (Hk : NoDup (dkeys (clusters_to_activities pairs))) by (apply push_fold_nodup; constructor).
    pose proof (nodes_loop lens (clusters_to_activities pairs) [] nodes Hk (fun _ _ => eq_refl) Hnodes k) as G.
    rewrite clusters_get in G. rewrite <- count_crowded, <- (members_count k processed labels Hlen). fold pairs.
    destruct (pick_members pairs k) as [|a l] eqn:E.
    - cbn [length]. split; [lia|]. intros _. exact G.
    - destruct (length (a :: l) <? 2) eqn:L; [apply Nat.ltb_lt in L|apply Nat.ltb_ge in L].
      + split; [lia|]. intros _. exact G.
      + split; [|lia]. intros _. destruct (cluster_node lens k (a :: l)) as [n|] eqn:C; [eauto|].
        exfalso. assert (Hin : In (k, a :: l) (clusters_to_activities pairs)) by (apply (dget_In N.eq_dec); rewrite clusters_get, E; reflexivity).
        clear -Hnodes Hin C L. unfold new_cluster_activities in Hnodes. revert Hnodes. generalize (@nil (N * cnode)) as acc.
        induction (clusters_to_activities pairs) as [|[k0 l0] r IH]; intros acc H; [destruct Hin|]. rewrite loopM_cons in H. cbn [fst snd] in H.
        destruct Hin as [Hin|Hin].
        * injection Hin as -> ->. assert (length (a :: l) <? 2 = false) as X by (apply Nat.ltb_ge; exact L). rewrite X in H. rewrite C in H. discriminate.
        * destruct (length l0 <? 2); [exact (IH Hin _ H)|]. destruct (cluster_node lens k0 l0); [|discriminate]. exact (IH Hin _ H).
  Qed.
  Lemma crowded_dec k : {crowded labels k} + {~ crowded labels k}.
  Proof. destruct (le_dec 2 (count_label k labels)) as [H|H]; [left|right]; rewrite <- count_crowded; assumption. Qed.
  Lemma in_cluster_unique n k k' : in_cluster processed labels n k -> in_cluster processed labels n k' -> k = k'.
  Proof. intros H H'. apply (names_get _ _ _ _ Hnames) in H. apply (names_get _ _ _ _ Hnames) in H'. congruence. Qed.

  Lemma replace_spec x :
    ci_start (replace_node names nodes x) = ci_start x /\ ci_length (replace_node names nodes x) = ci_length x /\
    renamed processed labels (cn_name (ci_node x)) (cn_name (ci_node (replace_node names nodes x))) /\
    ((ci_node (replace_node names nodes x) = ci_node x /\ (forall k, in_cluster processed labels (cn_name (ci_node x)) k -> ~ crowded labels k)) \/
     exists k, in_cluster processed labels (cn_name (ci_node x)) k /\ crowded labels k /\ cluster_node lens k (pick_members pairs k) = Ok (ci_node (replace_node names nodes x))).
  Proof.
    unfold replace_node. destruct (dget str_eq_dec names (cn_name (ci_node x))) as [k|] eqn:E.
    - apply (names_get _ _ _ _ Hnames) in E. destruct (crowded_dec k) as [C|C].
      + destruct (proj1 (nodes_get k) C) as (n & Hn & Hc). rewrite Hn. cbn [ci_start ci_length ci_node]. split; [reflexivity|]. split; [reflexivity|]. split.
        * left. exists k. split; [exact E|]. split; [exact C|]. apply cluster_node_name in Hc. apply Hc.
        * right. exists k. auto.
      + rewrite (proj2 (nodes_get k) C). assert (X : forall k', in_cluster processed labels (cn_name (ci_node x)) k' -> ~ crowded labels k').
        { intros k' Hk'. rewrite (in_cluster_unique _ _ _ Hk' E). exact C. }
        repeat split; auto. right. auto.
    - assert (X : forall k', in_cluster processed labels (cn_name (ci_node x)) k' -> ~ crowded labels k').
      { intros k' Hk'. apply (names_get _ _ _ _ Hnames) in Hk'. fold pairs in Hk'. fold names in Hk'. congruence. }
      repeat split; auto. right. auto.
  Qed.
  Lemma renamed_fun n m m' : renamed processed labels n m -> renamed processed labels n m' -> m = m'.
  Proof.
    intros [(k & H1 & H2 & ->)|(H1 & ->)] [(k' & H3 & H4 & ->)|(H3 & ->)].
    - rewrite (in_cluster_unique _ _ _ H1 H3). reflexivity.
    - exfalso. exact (H3 k H1 H2).
    - exfalso. exact (H1 k' H3 H4).
    - reflexivity.
  Qed.
  Lemma replace_covered l p m : covered (map (replace_node names nodes) l) p m <-> exists n, covered l p n /\ renamed processed labels n m.
  Proof.
    unfold covered. split.
    - intros (x & Hx & Hm & Hp). apply in_map_iff in Hx. destruct Hx as (y & <- & Hy). destruct (replace_spec y) as (E1 & E2 & R & _).
      rewrite E1, E2 in Hp. exists (cn_name (ci_node y)). split; [exists y; auto|]. rewrite <- Hm. exact R.
    - intros (n & (y & Hy & Hn & Hp) & R). destruct (replace_spec y) as (E1 & E2 & R' & _). exists (replace_node names nodes y).
      split; [apply in_map; exact Hy|]. rewrite E1, E2. split; [|exact Hp]. subst n. eapply renamed_fun; eassumption.
  Qed.
  Lemma replace_order l : forall from, in_order from l -> in_order from (map (replace_node names nodes) l).
  Proof.
    induction l as [|x l IH]; intros from H; [exact H|]. cbn [map in_order] in *. destruct (replace_spec x) as (E1 & E2 & _). rewrite E1, E2. split; [apply H|apply IH, H].
  Qed.
End Merge.

Definition name_of (x : cinst) : pystr := cn_name (ci_node x).
Definition stop_of (x : cinst) : nat := ci_start x + ci_length x.

Lemma join_loop_ind (P : cinst -> list cinst -> list cinst -> Prop) :
  (forall prev, P prev [] [prev]) ->
  (forall prev x r out, name_of prev = name_of x -> stop_of prev = ci_start x ->
     P (mkCInst (ci_node prev) (ci_start prev) (ci_length prev + ci_length x)) r out -> P prev (x :: r) out) ->
  (forall prev x r out, name_of prev <> name_of x \/ stop_of prev <> ci_start x -> P x r out -> P prev (x :: r) (prev :: out)) ->
  forall rest prev, P prev rest (join_loop prev (name_of prev) rest).
Proof.
  intros H1 H2 H3. induction rest as [|x r IH]; intros prev; cbn [join_loop]; [apply H1|]. cbv zeta.
  destruct (str_eqb (name_of prev) (cn_name (ci_node x))) eqn:E.
  - apply str_eqb_eq in E. destruct (Nat.eqb_spec (ci_start prev + ci_length prev) (ci_start x)) as [S|S].
    + apply H2; [exact E|exact S|]. rewrite <- E. apply (IH (mkCInst (ci_node prev) (ci_start prev) (ci_length prev + ci_length x))).
    + apply H3; [right; exact S|]. apply IH.
  - apply str_eqb_neq in E. apply H3; [left; exact E|]. apply IH.
Qed.

Lemma covered_cons x l p n : covered (x :: l) p n <-> (name_of x = n /\ ci_start x <= p < stop_of x) \/ covered l p n.
Proof.
  unfold covered, name_of, stop_of. split.
  - intros (y & [->|Hy] & H); [left; exact H|right; exists y; auto].
  - intros [H|(y & Hy & H)]; [exists x; split; [left; reflexivity|exact H]|exists y; split; [right; exact Hy|exact H]].
Qed.

Lemma join_covered rest prev p n : covered (join_loop prev (name_of prev) rest) p n <-> covered (prev :: rest) p n.
Proof.
  pattern prev, rest, (join_loop prev (name_of prev) rest). apply join_loop_ind; clear.
  - reflexivity.
  - intros prev x r out E S IH. rewrite IH. rewrite !covered_cons. unfold name_of, stop_of in *. cbn [ci_node ci_start ci_length].
    split.
    + intros [[Hn Hp]|H]; [|right; right; exact H]. destruct (lt_dec p (ci_start x)); [left; split; [exact Hn|lia]|right; left; split; [congruence|lia]].
    + intros [[Hn Hp]|[[Hn Hp]|H]]; [left; split; [exact Hn|lia]|left; split; [congruence|lia]|right; exact H].
  - intros prev x r out _ IH. rewrite !(covered_cons prev), IH. reflexivity.
Qed.

Lemma join_order rest prev from : in_order from (prev :: rest) -> in_order from (join_loop prev (name_of prev) rest).
Proof.
  revert from. pattern prev, rest, (join_loop prev (name_of prev) rest). apply join_loop_ind; clear.
  - auto.
  - intros prev x r out E S IH from H. apply IH. cbn [in_order ci_start ci_length] in *. unfold stop_of in S. split; [apply H|]. rewrite Nat.add_assoc, S. apply H.
  - intros prev x r out _ IH from H. cbn [in_order] in *. split; [apply H|]. apply IH. apply H.
Qed.

Lemma join_head rest prev : exists y r, join_loop prev (name_of prev) rest = y :: r /\ name_of y = name_of prev /\ ci_start y = ci_start prev.
Proof.
  pattern prev, rest, (join_loop prev (name_of prev) rest). apply join_loop_ind; clear.
  - intros prev. exists prev, []. auto.
  - intros prev x r out E S (y & r' & -> & H1 & H2). exists y, r'. auto.
  - intros prev x r out _ _. exists prev, out. auto.
Qed.

Lemma joined_cons x l : joined (x :: l) <-> (match l with y :: _ => name_of x <> name_of y \/ stop_of x <> ci_start y | [] => True end) /\ joined l.
Proof.
  split.
  - intros H. split.
    + destruct l as [|y r]; [exact I|]. apply (H [] x y r). reflexivity.
    + intros l1 a b l2 ->. apply (H (x :: l1) a b l2). reflexivity.
  - intros [H1 H2] [|z l1] a b l2 E; cbn [app] in E.
    + injection E as -> ->. exact H1.
    + injection E as -> ->. eapply H2. reflexivity.
Qed.

Lemma join_joined rest prev : joined (join_loop prev (name_of prev) rest).
Proof.
  assert (G : joined (join_loop prev (name_of prev) rest) /\ exists y r, join_loop prev (name_of prev) rest = y :: r /\ name_of y = name_of prev /\ ci_start y = ci_start prev).
  { pattern prev, rest, (join_loop prev (name_of prev) rest). apply join_loop_ind; clear.
    - intros prev. split; [|exists prev, []; auto]. intros [|? [|? ?]] a b l2 E; discriminate.
    - intros prev x r out E S [IH (y & r' & -> & H1 & H2)]. split; [exact IH|]. exists y, r'. auto.
    - intros prev x r out D [IH (y & r' & -> & H1 & H2)]. split; [|exists prev, (y :: r'); auto].
      apply joined_cons. split; [|exact IH]. rewrite H1, H2. exact D. }
  apply G.
Qed.

Lemma join_nodes rest prev y : In y (join_loop prev (name_of prev) rest) -> exists x, In x (prev :: rest) /\ ci_node y = ci_node x /\ ci_start y = ci_start x.
Proof.
  pattern prev, rest, (join_loop prev (name_of prev) rest). apply join_loop_ind; clear prev rest.
  - intros prev [<-|[]]. exists prev. split; [left; reflexivity|auto].
  - intros prev x r out E S IH H. destruct (IH H) as (z & [<-|Hz] & H1 & H2).
    + exists prev. split; [left; reflexivity|]. auto.
    + exists z. split; [right; right; exact Hz|auto].
  - intros prev x r out _ IH [<-|H]; [exists prev; split; [left; reflexivity|auto]|]. destruct (IH H) as (z & Hz & H1 & H2). exists z. split; [right; exact Hz|auto].
Qed.

Lemma neighbours_covered l p n : covered (join_neighbours l) p n <-> covered l p n.
Proof. destruct l as [|x [|y r]]; cbn [join_neighbours]; try reflexivity. apply join_covered. Qed.
Lemma neighbours_order l from : in_order from l -> in_order from (join_neighbours l).
Proof. destruct l as [|x [|y r]]; cbn [join_neighbours]; auto. apply join_order. Qed.
Lemma neighbours_joined l : joined (join_neighbours l).
Proof.
  destruct l as [|x [|y r]]; cbn [join_neighbours]; try apply join_joined.
  - intros [|? ?] a b l2 E; discriminate.
  - intros [|? [|? ?]] a b l2 E; discriminate.
Qed.
Lemma neighbours_nodes l y : In y (join_neighbours l) -> exists x, In x l /\ ci_node y = ci_node x /\ ci_start y = ci_start x.
Proof. destruct l as [|x [|z r]]; cbn [join_neighbours]; try (intros H; exists y; auto; fail). apply join_nodes. Qed.

Lemma merge_proof lens instances processed labels out :
  NoDup (map cn_name processed) -> length processed = length labels ->
  merge_activities lens instances processed labels = Ok out ->
  Forall2 (fun before after =>
    (forall p m, covered after p m <-> exists n, covered before p n /\ renamed processed labels n m) /\
    joined after /\
    (forall from, in_order from before -> in_order from after)) instances out.
Proof.
  intros Hn Hl H. unfold merge_activities in H. cbv zeta in H.
  destruct (new_cluster_activities lens (clusters_to_activities (labelled processed labels))) as [nodes|] eqn:E; [|discriminate]. cbn [bind] in H. injection H as <-.
  induction instances as [|t r IH]; constructor; [|exact IH]. split; [|split].
  - intros p m. rewrite neighbours_covered. eapply replace_covered; eassumption.
  - apply neighbours_joined.
  - intros from Ho. apply neighbours_order. eapply replace_order; eassumption.
Qed.

Lemma merge_nodes_proof lens instances processed labels out :
  NoDup (map cn_name processed) -> length processed = length labels ->
  merge_activities lens instances processed labels = Ok out ->
  Forall2 (fun before after => forall y, In y after -> exists x, In x before /\ ci_start y = ci_start x /\
    ((ci_node y = ci_node x /\ (forall k, in_cluster processed labels (cn_name (ci_node x)) k -> ~ crowded labels k)) \/
     exists k, in_cluster processed labels (cn_name (ci_node x)) k /\ crowded labels k /\
       cn_name (ci_node y) = create_cluster_name k /\ cn_repeat (ci_node y) = None /\
       (forall c, In c (cn_classes (ci_node y)) <-> exists i a, nth_error processed i = Some a /\ nth_error labels i = Some (Some k) /\ In c (cn_classes a)) /\
       (forall i a, nth_error processed i = Some a -> nth_error labels i = Some (Some k) ->
          (forall j, j < i -> nth_error labels j <> Some (Some k)) -> cn_level (ci_node y) = cn_level a))) instances out.
Proof.
  intros Hn Hl H. unfold merge_activities in H. cbv zeta in H.
  destruct (new_cluster_activities lens (clusters_to_activities (labelled processed labels))) as [nodes|] eqn:E; [|discriminate]. cbn [bind] in H. injection H as <-.
  induction instances as [|t r IH]; constructor; [|exact IH]. intros y Hy.
  apply neighbours_nodes in Hy. destruct Hy as (z & Hz & H1 & H2). apply in_map_iff in Hz. destruct Hz as (x & <- & Hx).
  destruct (replace_spec lens processed labels Hn Hl nodes E x) as (E1 & _ & _ & D). exists x. split; [exact Hx|]. split; [congruence|].
  destruct D as [[D1 D2]|(k & D1 & D2 & D3)]; [left; split; [congruence|exact D2]|]. right. exists k. split; [exact D1|]. split; [exact D2|].
  rewrite <- H1 in D3. apply cluster_node_name in D3. destruct D3 as (F1 & F2 & F3 & F4). split; [exact F1|]. split; [exact F2|]. split.
  - intros c. rewrite F3. split.
    + intros (a & Ha & Hc). unfold pick_members in Ha. apply in_flat_map in Ha. destruct Ha as ([b k'] & Hb & Ha). cbn [fst snd] in Ha.
      destruct (N.eqb_spec k' k) as [->|]; [|destruct Ha]. destruct Ha as [->|[]]. apply labelled_In in Hb. destruct Hb as (i & B1 & B2). exists i, a. auto.
    + intros (i & a & B1 & B2 & Hc). exists a. split; [|exact Hc]. unfold pick_members. apply in_flat_map. exists (a, k). split; [apply labelled_In; eauto|]. cbn [fst snd]. rewrite N.eqb_refl. left. reflexivity.
  - intros i a B1 B2 B3.
    assert (G : exists r, pick_members (labelled processed labels) k = a :: r); [|destruct G as [r' G]; eapply F4; exact G].
    clear -B1 B2 B3. revert labels i B1 B2 B3. induction processed as [|b q IHq]; intros labels i B1 B2 B3; [destruct i; discriminate|].
    destruct labels as [|o ls]; [destruct i; discriminate|]. unfold labelled. cbn [combine flat_map fst snd].
    destruct i as [|i].
    + cbn in B1, B2. injection B1 as ->. injection B2 as ->. cbn [app pick_members flat_map fst snd]. rewrite N.eqb_refl. cbn [app]. eexists. reflexivity.
    + cbn in B1, B2. destruct (IHq ls i B1 B2) as [r' G]. { intros j Hj. apply (B3 (S j)). lia. }
      assert (o <> Some k) by (intros X; apply (B3 0); [lia|cbn; congruence]). destruct o as [x0|]; cbn [app pick_members flat_map fst snd].
      * destruct (N.eqb_spec x0 k) as [->|]; [congruence|]. cbn [app]. exists r'. exact G.
      * exists r'. exact G.
Qed.

Lemma merge_total_proof lens instances processed labels :
  (forall a, In a processed -> repeat_in_log lens a) -> exists out, merge_activities lens instances processed labels = Ok out.
Proof.
  intros H. unfold merge_activities. cbv zeta.
  assert (Hin : forall k l, In (k, l) (clusters_to_activities (labelled processed labels)) -> forall a, In a l -> In a processed).
  { intros k l Hkl a Ha. apply (In_dget N.eq_dec) in Hkl; [|apply push_fold_nodup; constructor]. unfold clusters_to_activities in Hkl. rewrite push_fold in Hkl. cbn [dget] in Hkl.
    assert (l = pick_members (labelled processed labels) k) as -> by (destruct (pick_members (labelled processed labels) k); congruence).
    unfold pick_members in Ha. apply in_flat_map in Ha. destruct Ha as ([b k'] & Hb & Ha). cbn [fst snd] in Ha. destruct (k' =? k)%N; [|destruct Ha]. destruct Ha as [->|[]].
    apply labelled_In in Hb. destruct Hb as (i & B1 & _). eapply nth_error_In. exact B1. }
  assert (G : exists nodes, new_cluster_activities lens (clusters_to_activities (labelled processed labels)) = Ok nodes).
  { unfold new_cluster_activities. revert Hin. generalize (@nil (N * cnode)) as acc. induction (clusters_to_activities (labelled processed labels)) as [|[k l] r IH]; intros acc Hin; [exists acc; reflexivity|].
    rewrite loopM_cons. cbn [fst snd].
    assert (Hr : forall k l, In (k, l) r -> forall a, In a l -> In a processed) by (intros k' l' Hk'; eapply Hin; right; exact Hk').
    destruct (length l <? 2); [cbn [bind]; apply IH; exact Hr|].
    assert (M : exists u, mapM (read_repeat lens) l = Ok u).
    { assert (Hl : forall a, In a l -> In a processed) by (eapply Hin; left; reflexivity). clear -H Hl. induction l as [|a l IHl]; [exists []; reflexivity|].
      cbn [mapM]. assert (read_repeat lens a = Ok tt) as ->.
      { specialize (H a (Hl a (or_introl eq_refl))). unfold repeat_in_log in H. unfold read_repeat. destruct (cn_repeat a) as [[[t s] n]|]; [|reflexivity].
        destruct H as (len & -> & Hle). assert (s + n <=? len = true) as -> by (apply Nat.leb_le; exact Hle). reflexivity. }
      cbn [bind]. destruct IHl as [u Hu]; [intros b Hb; apply Hl; right; exact Hb|]. rewrite Hu. eexists. reflexivity. }
    destruct M as [u Hu]. unfold cluster_node at 1. rewrite Hu. cbn [bind]. apply IH. exact Hr. }
  destruct G as [nodes ->]. cbn [bind]. eexists. reflexivity.
Qed.

(** * The picture *)

Lemma insert_Z_In x l y : In y (insert_Z x l) <-> y = x \/ In y l.
Proof.
  induction l as [|z l IH]; cbn [insert_Z In]; [firstorder|]. destruct (Z.ltb_spec x z); [cbn [In]; firstorder|].
  destruct (Z.eqb_spec x z) as [->|]; cbn [In]; [firstorder; subst; auto|]. rewrite IH. firstorder.
Qed.
Lemma insert_Z_sorted x l : StronglySorted Z.lt l -> StronglySorted Z.lt (insert_Z x l).
Proof.
  induction 1 as [|z l Hs IH Hf]; cbn [insert_Z]; [repeat constructor|]. destruct (Z.ltb_spec x z).
  - constructor; [constructor; assumption|]. constructor; [assumption|]. eapply Forall_impl; [|exact Hf]. intros a. lia.
  - destruct (Z.eqb_spec x z) as [->|]; [constructor; assumption|]. constructor; [exact IH|]. rewrite Forall_forall in *. intros y Hy. apply insert_Z_In in Hy. destruct Hy as [->|Hy]; [lia|auto].
Qed.
Lemma np_unique_In l y : In y (np_unique l) <-> In y l.
Proof. induction l as [|x l IH]; cbn [np_unique fold_right]; [reflexivity|]. fold (np_unique l). rewrite insert_Z_In, IH. cbn. firstorder. Qed.
Lemma np_unique_sorted l : StronglySorted Z.lt (np_unique l).
Proof. induction l as [|x l IH]; cbn [np_unique fold_right]; [constructor|]. apply insert_Z_sorted, IH. Qed.

Lemma find_last_column columns : forall row (c : cell), length row = length columns -> ~ In (str "cluster_labels") columns ->
  find (fun nc => str_eqb (fst nc) (str "cluster_labels")) (combine (columns ++ [str "cluster_labels"]) (row ++ [c])) = Some (str "cluster_labels", c).
Proof.
  induction columns as [|n columns IH]; intros [|x row] c H Hn; try discriminate; [reflexivity|].
  cbn [app combine find fst]. destruct (str_eqb n (str "cluster_labels")) eqn:E; [apply str_eqb_eq in E; destruct Hn; left; exact E|].
  apply IH; [cbn in H; congruence|]. intros X. apply Hn. right. exact X.
Qed.
Lemma drop_last_column columns : forall row (c : cell), length row = length columns -> ~ In (str "cluster_labels") columns ->
  map snd (filter (fun nc => negb (str_eqb (fst nc) (str "cluster_labels"))) (combine (columns ++ [str "cluster_labels"]) (row ++ [c]))) = row.
Proof.
  induction columns as [|n columns IH]; intros [|x row] c H Hn; try discriminate; [reflexivity|].
  cbn [app combine filter fst]. destruct (str_eqb n (str "cluster_labels")) eqn:E; [apply str_eqb_eq in E; destruct Hn; left; exact E|].
  cbn [negb map snd]. f_equal. apply IH; [cbn in H; congruence|]. intros X. apply Hn. right. exact X.
Qed.

Section Points.
  Context {C : Type}.
  Variable zero : C.
  Lemma components_spec n row : n <= length row -> components zero n row = Ok (point zero n row).
  Proof.
    intros H. unfold components, point.
    assert (E : forall suf pre : list C, n <= length suf ->
      mapM (fun i => match nth_error (pre ++ suf) i with Some c => Ok c | None => Err IndexError end) (seq (length pre) n) = Ok (firstn n suf)).
    { clear. induction n as [|n IH]; intros suf pre H; [reflexivity|]. destruct suf as [|c suf]; [cbn in H; lia|]. cbn [seq mapM].
      rewrite nth_error_app2, Nat.sub_diag by lia. cbn [nth_error bind]. specialize (IH suf (pre ++ [c])). rewrite <- app_assoc, app_length in IH. cbn [app length] in IH.
      rewrite Nat.add_1_r in IH. rewrite IH by (cbn in H; lia). reflexivity. }
    specialize (E row [] H). cbn [app length] in E.
    rewrite E. cbn [bind]. f_equal. rewrite firstn_length_le by exact H. destruct (Nat.eqb_spec n 1) as [->|]; reflexivity.
  Qed.
  Lemma components_all n rows : (forall row, In row rows -> n <= length row) -> mapM (components zero n) rows = Ok (map (point zero n) rows).
  Proof.
    induction rows as [|r rows IH]; intros H; [reflexivity|]. cbn [mapM map]. rewrite components_spec by (apply H; left; reflexivity). cbn [bind].
    rewrite IH by (intros row Hr; apply H; right; exact Hr). reflexivity.
  Qed.
End Points.

Lemma members_filter {T} (f : T -> T) labels k : forall (rows : list T),
  map snd (filter (fun yp => (fst yp =? Z.of_N k)%Z) (combine (map Z.of_N labels) (map f rows))) = map f (members rows labels k).
Proof.
  unfold members. induction labels as [|l labels IH]; intros [|r rows]; try reflexivity. cbn [map combine filter fst flat_map snd].
  destruct (Z.eqb_spec (Z.of_N l) (Z.of_N k)) as [E|E]; destruct (N.eqb_spec l k) as [E'|E']; try lia; cbn [map snd app]; rewrite IH; reflexivity.
Qed.

Lemma colors_get labels : forall cs d k,
  (forall i j a b c e, nth_error labels i = Some a -> nth_error labels j = Some b -> nth_error cs i = Some c -> nth_error cs j = Some e -> (c = e <-> a = b)) ->
  forall i c, nth_error labels i = Some k -> nth_error cs i = Some c ->
  dget Z.eq_dec (fold_left (fun m lc => dset Z.eq_dec m (fst lc) (from_grpc_color (snd lc))) (combine (map Z.of_N labels) (map color_grpc cs)) d) (Z.of_N k) = Some (from_grpc_color (color_grpc c)).
Proof.
  induction labels as [|l labels IH]; intros [|c0 cs] d k H i c Hi Hc; try (destruct i; discriminate).
  cbn [map combine fold_left fst snd].
  assert (Htl : forall i j a b c e, nth_error labels i = Some a -> nth_error labels j = Some b -> nth_error cs i = Some c -> nth_error cs j = Some e -> (c = e <-> a = b)).
  { intros i' j' a b c1 e H1 H2 H3 H4. apply (H (S i') (S j') a b c1 e); assumption. }
  destruct (In_dec N.eq_dec k (firstn (length cs) labels)) as [Hin|Hin].
  - apply In_nth_error in Hin. destruct Hin as [j Hj]. assert (Hjl : j < length cs).
    { assert (j < length (firstn (length cs) labels)) by (apply nth_error_Some; congruence). rewrite firstn_length in H0. lia. }
    assert (Hj' : nth_error labels j = Some k).
    { rewrite <- (firstn_skipn (length cs) labels). rewrite nth_error_app1; [exact Hj|]. apply nth_error_Some. congruence. }
    destruct (nth_error cs j) as [e|] eqn:He; [|apply nth_error_None in He; lia].
    rewrite (IH cs _ k Htl j e Hj' He). f_equal. f_equal. f_equal. apply (H (S j) i k k e c); auto.
  - assert (i = 0). { destruct i as [|i]; [reflexivity|]. exfalso. apply Hin. cbn in Hi, Hc. assert (i < length cs) by (apply nth_error_Some; congruence).
      apply (nth_error_In _ i). rewrite <- Hi. rewrite <- (firstn_skipn (length cs) labels) at 2. rewrite nth_error_app1; [reflexivity|]. rewrite firstn_length. assert (i < length labels) by (apply nth_error_Some; congruence). lia. }
    subst i. cbn in Hi, Hc. injection Hi as ->. injection Hc as ->.
    clear -Hin. generalize (dset Z.eq_dec d (Z.of_N k) (from_grpc_color (color_grpc c))) as d0, (dget_dset_same Z.eq_dec d (Z.of_N k) (from_grpc_color (color_grpc c))).
    revert cs Hin. induction labels as [|l labels IH]; intros [|c0 cs] Hin d0 Hd; try exact Hd. cbn [map combine fold_left fst snd]. cbn [length firstn In] in Hin.
    apply IH; [tauto|]. rewrite dget_dset_other; [exact Hd|]. intros X. apply Hin. left. lia.
Qed.

Lemma StronglySorted_to_N l : (forall z, In z l -> (0 <= z)%Z) -> StronglySorted Z.lt l -> StronglySorted N.lt (map Z.to_N l).
Proof.
  induction l as [|x l IH]; intros H Hs; cbn [map]; [constructor|]. inversion Hs as [|? ? Hs' Hf]; subst. constructor.
  - apply IH; [intros z Hz; apply H; right; exact Hz|exact Hs'].
  - rewrite Forall_forall in *. intros y Hy. apply in_map_iff in Hy. destruct Hy as (z & <- & Hz). specialize (Hf z Hz). specialize (H x (or_introl eq_refl)). lia.
Qed.

Lemma html_inj c d : byte_color c -> byte_color d -> html c = html d -> c = d.
Proof.
  destruct c as [[r g] b], d as [[r' g'] b']. unfold byte_color, html. cbn [fst snd]. intros (A1 & A2 & A3) (B1 & B2 & B3) H.
  apply to_hex_inj in H; try lia. destruct H as (H1 & H2 & H3). repeat f_equal; lia.
Qed.

Lemma show_labeled_one o key g df : vo_show o = true -> from_grpc_labeled_dataset (as_labeled g) = Ok df ->
  show_labeled o key [(key, g)] = Ok (ShDataset df (label_colors (as_labeled g)) (Some (str "cluster_labels"))).
Proof.
  intros Ho H. unfold show_labeled. rewrite Ho. cbn [negb]. unfold DecodeModel.pick, dgetitem. cbn [dget]. destruct (str_eq_dec key key); [|congruence].
  cbn [bind]. rewrite H. reflexivity.
Qed.

Section Picture.
  Context {C : Type}.
  Variable zero : C.
  Variable reduce : list (list cell) -> result (list (list C)).

  Lemma picture_proof rng fuel labels h cs h' d o key n rows :
    key = str "labeled_traces_activities_dataset" \/ key = str "labeled_log_traces_dataset" ->
    sound_holder h -> byte_holder h -> (forall i, byte_color (rng i)) ->
    create_colors_vector rng fuel labels h = Ok (cs, h') ->
    regular d -> length labels = length (rd_values d) -> (forall l, In l labels -> label32 (Z.of_N l)) -> ~ In (str "cluster_labels") (rd_columns d) ->
    vo_show o = true ->
    reduce (map (map (fun x => CellFloat (f32 x))) (rd_values d)) = Ok rows -> length rows = length labels -> (forall row, In row rows -> n <= length row) ->
    exists g df colors pic ks,
      value_grpc key (VLabeled d (map Z.of_N labels) cs) = Some g /\
      show_labeled o key [(key, g)] = Ok (ShDataset df colors (Some (str "cluster_labels"))) /\
      visualize zero reduce df n colors (Some (str "cluster_labels")) = Ok pic /\
      StronglySorted N.lt ks /\ (forall k, In k ks <-> In k labels) /\
      Forall2 (shows zero n rows labels cs) ks pic /\ NoDup (map se_color pic).
  Proof.
    intros Hkey Hs Hb Hr Hcv Hreg Hl Hl32 Hc Ho Hred Hrl Hrn.
    destruct (colors_proof _ _ _ _ _ _ Hs Hcv) as (Hcl & _ & Heq & _).
    assert (Hbytes : forall c, In c cs -> byte_color c).
    { destruct (colors_vector_spec _ _ _ _ _ _ Hs Hcv) as (_ & _ & F & B). specialize (B Hr Hb). clear -F B. induction F; intros c0 [].
      - subst. eapply B. eassumption.
      - apply IHF. assumption. }
    set (g := GLabeled (mkGLabeled (dataset_grpc d) (map as_i32 (map Z.of_N labels)) (map color_grpc cs))).
    assert (Hg : value_grpc key (VLabeled d (map Z.of_N labels) cs) = Some g) by (destruct Hkey as [-> | ->]; reflexivity).
    assert (Hl32' : forall z, In z (map Z.of_N labels) -> label32 z) by (intros z Hz; apply in_map_iff in Hz; destruct Hz as (k & <- & Hk); apply Hl32, Hk).
    assert (Elab : map as_i32 (map Z.of_N labels) = map Z.of_N labels).
    { rewrite <- (map_id (map Z.of_N labels)) at 2. apply map_ext_in. intros z Hz. apply as_i32_small, Hl32', Hz. }
    set (df := mkFrame (rd_columns d ++ [str "cluster_labels"]) (rd_names d)
        (map (fun rl => map (fun x => CellFloat (f32 x)) (fst rl) ++ [CellInt (snd rl)]) (combine (rd_values d) (map Z.of_N labels)))).
    assert (Hdf : from_grpc_labeled_dataset (as_labeled g) = Ok df).
    { apply labeled_proof; auto. rewrite map_length. exact Hl. }
    set (colors := label_colors (as_labeled g)).
    assert (Hshow : show_labeled o key [(key, g)] = Ok (ShDataset df colors (Some (str "cluster_labels")))).
    { apply show_labeled_one; assumption. }
    assert (Hvals : get_values_to_visualize df (Some (str "cluster_labels")) = map (map (fun x => CellFloat (f32 x))) (rd_values d)).
    { unfold get_values_to_visualize, df. cbn [fr_rows fr_columns]. rewrite map_map. destruct Hreg as [_ Hreg].
      clear -Hl Hreg Hc. revert labels Hl. induction (rd_values d) as [|r rs IH]; intros [|l ls] Hl; try discriminate; [reflexivity|]. cbn [map combine].
      rewrite drop_last_column; [|rewrite map_length; apply Hreg; left; reflexivity|exact Hc]. cbn [fst]. f_equal. apply IH; [intros row Hrow; apply Hreg; right; exact Hrow|cbn in Hl; congruence]. }
    assert (Hy : label_column df (str "cluster_labels") = Ok (map Z.of_N labels)).
    { unfold label_column, df. cbn [fr_rows fr_columns]. destruct Hreg as [_ Hreg].
      clear -Hl Hreg Hc. revert labels Hl. induction (rd_values d) as [|r rs IH]; intros [|l ls] Hl; try discriminate; [reflexivity|]. cbn [map combine mapM].
      rewrite find_last_column; [|rewrite map_length; apply Hreg; left; reflexivity|exact Hc]. cbn [fst snd bind].
      rewrite IH; [reflexivity|intros row Hrow; apply Hreg; right; exact Hrow|cbn in Hl; congruence]. }
    set (ks := map Z.to_N (np_unique (map Z.of_N labels))).
    assert (Hnn : forall z, In z (np_unique (map Z.of_N labels)) -> (0 <= z)%Z).
    { intros z Hz. apply np_unique_In, in_map_iff in Hz. destruct Hz as (k & <- & _). lia. }
    assert (Hks : np_unique (map Z.of_N labels) = map Z.of_N ks).
    { unfold ks. rewrite map_map. rewrite <- (map_id (np_unique (map Z.of_N labels))) at 1. apply map_ext_in. intros z Hz. specialize (Hnn z Hz). lia. }
    assert (Hin : forall k, In k ks <-> In k labels).
    { intros k. unfold ks. rewrite in_map_iff. split.
      - intros (z & <- & Hz). apply np_unique_In, in_map_iff in Hz. destruct Hz as (k & <- & Hk). rewrite N2Z.id. exact Hk.
      - intros Hk. exists (Z.of_N k). split; [apply N2Z.id|]. apply np_unique_In, in_map. exact Hk. }
    set (mk := fun l => mkSeries (map snd (filter (fun yp : Z * list C => (fst yp =? l)%Z) (combine (map Z.of_N labels) (map (point zero n) rows))))
                (Some (match dget Z.eq_dec colors l with Some c => hex_of c | None => str "#FFFFFF" end)) (Some (str "CLUSTER_" ++ show_int l))).
    assert (Hshows : forall k, In k labels -> shows zero n rows labels cs k (mk (Z.of_N k))).
    { intros k Hk. unfold shows, mk. cbn [se_label se_color se_points]. split; [reflexivity|]. split.
      - apply In_nth_error in Hk. destruct Hk as [i Hi]. destruct (nth_error cs i) as [c|] eqn:E.
        2:{ apply nth_error_None in E. assert (i < length labels) by (apply nth_error_Some; congruence). lia. }
        exists i, c. split; [exact Hi|]. split; [exact E|]. unfold colors, label_colors, g. cbn [as_labeled gl_labels gl_colors]. rewrite Elab.
        rewrite (colors_get labels cs [] k Heq i c Hi E). reflexivity.
      - apply members_filter. }
    exists g, df, colors, (map mk (map Z.of_N ks)), ks. split; [exact Hg|]. split; [exact Hshow|]. split; [|split; [|split; [exact Hin|split]]].
    - unfold visualize. rewrite Hvals, Hred. cbn [bind]. rewrite components_all by exact Hrn. cbn [bind]. unfold draw_scatter. rewrite Hy. cbn [bind]. rewrite Hks. reflexivity.
    - apply StronglySorted_to_N; [exact Hnn|apply np_unique_sorted].
    - rewrite map_map. assert (Hall : forall k, In k ks -> In k labels) by (intros k; apply Hin). clear -Hall Hshows. induction ks as [|k ks IH]; constructor.
      + apply Hshows, Hall. left. reflexivity.
      + apply IH. intros k' Hk'. apply Hall. right. exact Hk'.
    - assert (Hnd : NoDup ks). { assert (S : StronglySorted N.lt ks) by (apply StronglySorted_to_N; [exact Hnn|apply np_unique_sorted]). clear -S. induction S as [|x l S IH F]; constructor; [|exact IH]. intros X. rewrite Forall_forall in F. specialize (F x X). lia. }
      assert (Hall : forall k, In k ks -> In k labels) by (intros k; apply Hin). rewrite !map_map. clear -Hnd Hall Hshows Heq Hbytes. induction ks as [|k ks IH]; cbn [map]; constructor.
      + intros X. apply in_map_iff in X. destruct X as (k' & E & Hk'). inversion Hnd as [|? ? Hn _]; subst. apply Hn.
        destruct (Hshows k (Hall k (or_introl eq_refl))) as (_ & (i & c & I1 & I2 & I3) & _). destruct (Hshows k' (Hall k' (or_intror Hk'))) as (_ & (j & e & J1 & J2 & J3) & _).
        rewrite I3, J3 in E. assert (E' : html e = html c) by congruence. apply html_inj in E'; [|apply Hbytes; eapply nth_error_In; eassumption|apply Hbytes; eapply nth_error_In; eassumption].
        subst e. assert (k = k') by (eapply Heq; eauto). congruence.
      + apply IH; [inversion Hnd; assumption|]. intros k' Hk'. apply Hall. right. exact Hk'.
  Qed.
End Picture.
