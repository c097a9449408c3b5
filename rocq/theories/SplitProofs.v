From Coq Require Import Permutation.
From Verif Require Import Py PyFacts HashModel SplitModel GroupFacts SplitSpec MutSpec MutProofs.

Definition keyN_dec : forall a b : list N, {a = b} + {a <> b} := list_eq_dec N.eq_dec.

Lemma NoDup_app {A} (l1 l2 : list A) :
  NoDup l1 -> NoDup l2 -> (forall x, In x l1 -> ~ In x l2) -> NoDup (l1 ++ l2).
Proof.
  induction l1 as [|x l1 IH]; intros H1 H2 Hd; cbn; [exact H2|].
  inversion H1 as [|? ? Hx H1']; subst. constructor.
  - rewrite in_app_iff; intros [H|H]; [contradiction|]. apply (Hd x); [left; reflexivity|assumption].
  - apply IH; [assumption|assumption|]. intros y Hy; apply Hd; right; assumption.
Qed.

Section SplitProofs.
  Context {T : Type}.
  Variable names : T -> list pystr.

  Definition hseq (t : T) : list N := map string_poly_hash (names t).
  Definition pkey (i : nat) (t : T) : list N := firstn i (hseq t).

  Definition cls (key : T -> list N) (b : list T) (k : list N) : list T :=
    filter (keyb keyN_dec key k) b.

  Lemma in_cls key b k t : In t (cls key b k) <-> In t b /\ key t = k.
  Proof. unfold cls. rewrite filter_In, keyb_true. reflexivity. Qed.

  Lemma hashes2traces_ok i g d (H : forall t, In t g -> i < length (names t)) :
    hashes2traces names i g d =
    Ok (group N.eq_dec (fun t => nth i (hseq t) 0%N) g d).
  Proof.
    revert d; induction g as [|t g IH]; intros d; cbn; [reflexivity|].
    destruct (nth_error (names t) i) as [n|] eqn:E.
    - rewrite IH by (intros; apply H; right; assumption).
      unfold group; cbn. do 2 f_equal. f_equal.
      unfold hseq. rewrite nth_indep with (d' := string_poly_hash []) by
        (rewrite map_length; apply H; left; reflexivity).
      rewrite map_nth. f_equal. symmetry. apply nth_error_nth. exact E.
    - apply nth_error_None in E. specialize (H t (or_introl eq_refl)). lia.
  Qed.

  Lemma firstn_S_nth {A} i (l : list A) d : i < length l -> firstn (S i) l = firstn i l ++ [nth i l d].
  Proof.
    revert l; induction i as [|i IH]; intros [|x l] H; cbn in *; try lia; [reflexivity|].
    f_equal. apply IH. lia.
  Qed.

  Lemma pkey_S i t : i < length (names t) -> pkey (S i) t = pkey i t ++ [nth i (hseq t) 0%N].
  Proof. intros H. apply firstn_S_nth. unfold hseq; rewrite map_length; exact H. Qed.

  Lemma firstn_pkey i t : firstn i (pkey (S i) t) = pkey i t.
  Proof. unfold pkey. rewrite firstn_firstn. f_equal. lia. Qed.

  Lemma cls_singleton (key key' : T -> list N) b k t :
    (forall x y, key' x = key' y -> key x = key y) ->
    cls key b k = [t] -> cls key' b (key' t) = [t].
  Proof.
    intros Hr H.
    assert (Ht : In t b /\ key t = k) by (apply in_cls; rewrite H; left; reflexivity).
    assert (E : cls key' b (key' t) = filter (keyb keyN_dec key' (key' t)) (cls key b k)).
    { unfold cls. rewrite filter_filter_and. apply filter_ext. intros x. 
      destruct (keyb keyN_dec key' (key' t) x) eqn:E; [|rewrite andb_false_r; reflexivity].
      rewrite andb_true_r. symmetry. apply keyb_true. apply keyb_true in E.
      rewrite (Hr _ _ E). tauto. }
    rewrite E, H. cbn. replace (keyb keyN_dec key' (key' t) t) with true; [reflexivity|].
    symmetry; apply keyb_true; reflexivity.
  Qed.

  Section Bucket.
    Variable b : list T.
    Variable n : nat.
    Hypothesis Hlen : forall t, In t b -> length (names t) = n.

    Lemma refine_step i ks :
      i < n -> NoDup ks -> (forall k, In k ks -> exists x, In x b /\ pkey i x = k) ->
      exists ks' one,
        refine_groups names i (map (cls (pkey i) b) ks) = Ok (map (cls (pkey (S i)) b) ks', one) /\
        NoDup ks' /\
        (forall k', In k' ks' <-> In (firstn i k') ks /\ exists x, In x b /\ pkey (S i) x = k') /\
        (one = true -> forall k, In k ks -> length (cls (pkey i) b k) = 1).
    Proof.
      intros Hi. induction ks as [|k ks IH]; intros Hnd Hne.
      - exists [], true. cbn. repeat split; try constructor; try tauto.
      - inversion Hnd as [|? ? Hk Hnd']; subst.
        destruct IH as [ks' [one [E [Hnd2 [Hin Hone]]]]];
          [assumption|intros; apply Hne; right; assumption|].
        cbn [map refine_groups].
        destruct (length (cls (pkey i) b k) =? 1) eqn:El.
        + apply Nat.eqb_eq in El.
          destruct (cls (pkey i) b k) as [|t [|? ?]] eqn:Ec; cbn in El; try lia.
          assert (Ht : In t b /\ pkey i t = k) by (apply in_cls; rewrite Ec; left; reflexivity).
          exists (pkey (S i) t :: ks'), one. rewrite E; cbn [bind map].
          rewrite (cls_singleton (pkey i) (pkey (S i)) b k t); [| |exact Ec].
          2:{ intros x y Hxy. rewrite <- (firstn_pkey i x), <- (firstn_pkey i y), Hxy; reflexivity. }
          split; [reflexivity|]. split; [|split].
          * constructor; [|assumption]. rewrite Hin. intros [H _].
            rewrite firstn_pkey in H. destruct Ht as [_ Ht]. rewrite Ht in H. contradiction.
          * intros k'. split.
            -- intros [<-|H].
               ++ rewrite firstn_pkey. split; [left; symmetry; tauto|]. exists t; tauto.
               ++ apply Hin in H. split; [right; tauto|tauto].
            -- intros [[H|H] [x [Hx Ex]]].
               ++ left. assert (Hxc : In x (cls (pkey i) b k)).
                  { apply in_cls. split; [assumption|]. rewrite <- (firstn_pkey i x), Ex. auto. }
                  rewrite Ec in Hxc. destruct Hxc as [->|[]]. exact Ex.
               ++ right. apply Hin. eauto.
          * intros Ho k' [<-|Hk']; [rewrite Ec; reflexivity|auto].
        + assert (Hg : forall t, In t (cls (pkey i) b k) -> i < length (names t)).
          { intros t Ht. apply in_cls in Ht. rewrite Hlen by tauto. exact Hi. }
          rewrite hashes2traces_ok by exact Hg. cbn [bind]. rewrite E. cbn [bind].
          set (hk := fun t => nth i (hseq t) 0%N).
          set (hs := dkeys (group N.eq_dec hk (cls (pkey i) b k) [])).
          exists (map (fun h => k ++ [h]) hs ++ ks'), false.
          assert (Hks : exists x, In x b /\ pkey i x = k) by (apply Hne; left; reflexivity).
          destruct Hks as [x0 [Hx0 Ex0]].
          assert (Hlk : length k = i).
          { rewrite <- Ex0. unfold pkey, hseq. rewrite firstn_length, map_length, Hlen by assumption. lia. }
          assert (Hext : forall h, cls (pkey (S i)) b (k ++ [h]) = filter (keyb N.eq_dec hk h) (cls (pkey i) b k)).
          { intros h. unfold cls. rewrite filter_filter_and. apply filter_ext_in. intros x Hx.
            apply eq_true_iff_eq. rewrite andb_true_iff, !keyb_true.
            rewrite pkey_S by (rewrite Hlen by assumption; exact Hi).
            split.
            - intros H. apply app_inj_tail in H. exact H.
            - intros [-> <-]. reflexivity. }
          assert (Hhs : forall h, In h hs <-> exists x, In x (cls (pkey i) b k) /\ hk x = h).
          { intros h. unfold hs. rewrite group_keys. cbn. rewrite in_map_iff. 
            split; [intros [[]|[x [H1 H2]]]; eauto|]. intros [x [H1 H2]]; right; eauto. }
          split; [|split; [|split]].
          * do 2 f_equal. rewrite map_app. f_equal. rewrite map_map.
            rewrite (map_ext _ _ Hext). unfold dvalues. rewrite group_list. rewrite map_map.
            unfold hs. reflexivity.
          * apply NoDup_app.
            -- apply FinFun.Injective_map_NoDup; [|apply group_NoDup; constructor].
               intros h1 h2 H. apply app_inj_tail in H; tauto.
            -- assumption.
            -- intros k' H1 H2. apply in_map_iff in H1. destruct H1 as [h [<- _]].
               apply Hin in H2. destruct H2 as [H2 _].
               rewrite <- Hlk in H2. rewrite firstn_app, Nat.sub_diag, firstn_all, app_nil_r in H2. contradiction.
          * intros k'. rewrite in_app_iff, in_map_iff, Hin. split.
            -- intros [[h [<- Hh]]|H].
               ++ apply Hhs in Hh. destruct Hh as [x [Hx Ehx]]. apply in_cls in Hx. destruct Hx as [Hxb Hxk].
                  split.
                  ** left. rewrite <- Hlk. rewrite firstn_app, Nat.sub_diag, firstn_all, app_nil_r. reflexivity.
                  ** exists x. split; [assumption|]. rewrite pkey_S by (rewrite Hlen by assumption; exact Hi).
                     rewrite Hxk. subst h. reflexivity.
               ++ split; [right; tauto|tauto].
            -- intros [[H|H] [x [Hx Ex]]].
               ++ left. exists (hk x). split.
                  ** rewrite <- Ex, pkey_S by (rewrite Hlen by assumption; exact Hi).
                     f_equal. rewrite <- (firstn_pkey i x), Ex. exact H.
                  ** apply Hhs. exists x. split; [|reflexivity]. apply in_cls. split; [assumption|].
                     rewrite <- (firstn_pkey i x), Ex. auto.
               ++ right. split; [assumption|eauto].
          * discriminate.
    Qed.

    Lemma refine_loop_ok k i ks :
      i + k = n -> NoDup ks -> (forall q, In q ks <-> exists x, In x b /\ pkey i x = q) ->
      exists ks', refine_loop names k i (map (cls (pkey i) b) ks) = Ok (map (cls hseq b) ks') /\
        NoDup ks' /\ (forall q, In q ks' <-> exists x, In x b /\ hseq x = q).
    Proof.
      revert i ks; induction k as [|k IH]; intros i ks Hik Hnd Hin; cbn [refine_loop].
      - assert (E : forall x, In x b -> pkey i x = hseq x).
        { intros x Hx. unfold pkey. apply firstn_all2. unfold hseq. rewrite map_length, Hlen by assumption. lia. }
        exists ks. split; [|split; [assumption|]].
        + f_equal. apply map_ext. intros q. unfold cls. apply filter_ext_in. intros x Hx.
          apply eq_true_iff_eq. rewrite !keyb_true, E by assumption. reflexivity.
        + intros q. rewrite Hin. split; intros [x [Hx Ex]]; exists x; split; auto; rewrite <- Ex; [symmetry|]; auto.
      - destruct (refine_step i ks) as [ks' [one [E [Hnd' [Hin' Hone]]]]];
          [lia|assumption|intros q Hq; apply Hin; exact Hq|].
        rewrite E. cbn [bind]. destruct one.
        + specialize (Hone eq_refl).
          (* every group is a singleton: it already is a full class *)
          assert (Hs : forall l, (forall q, In q l -> In q ks) -> NoDup l ->
                   exists l', map (cls (pkey i) b) l = map (cls hseq b) l' /\ NoDup l' /\
                     forall q, In q l' <-> exists x, In x b /\ hseq x = q /\ In (pkey i x) l).
          { induction l as [|q l IHl]; intros Hsub Hl.
            - exists []. cbn. repeat split; [constructor|tauto|]. intros [x [_ [_ []]]].
            - inversion Hl as [|? ? Hql Hl']; subst.
              destruct IHl as [l' [E1 [E2 E3]]]; [intros; apply Hsub; right; assumption|assumption|].
              assert (Hq := Hone q (Hsub q (or_introl eq_refl))).
              destruct (cls (pkey i) b q) as [|t [|? ?]] eqn:Ec; cbn in Hq; try lia.
              assert (Ht : In t b /\ pkey i t = q) by (apply in_cls; rewrite Ec; left; reflexivity).
              exists (hseq t :: l'). split; [|split].
              + cbn. rewrite E1, Ec. f_equal. symmetry.
                apply (cls_singleton (pkey i) hseq b q t); [|exact Ec].
                intros x y Hxy. unfold pkey. rewrite Hxy. reflexivity.
              + constructor; [|assumption]. rewrite E3. intros [x [Hx [Ex Hxl]]].
                unfold pkey in Hxl. rewrite Ex in Hxl. destruct Ht as [_ Ht]. unfold pkey in Ht. rewrite Ht in Hxl. contradiction.
              + intros q'. cbn. rewrite E3. split.
                * intros [<-|[x [H1 [H2 H3]]]]; [exists t; intuition|exists x; auto].
                * intros [x [H1 [H2 [H3|H3]]]]; [left|right; eauto].
                  assert (Hxc : In x (cls (pkey i) b q)) by (apply in_cls; auto).
                  rewrite Ec in Hxc. destruct Hxc as [->|[]]. exact H2. }
          destruct (Hs ks) as [l' [E1 [E2 E3]]]; [auto|assumption|].
          exists l'. rewrite E1. split; [reflexivity|]. split; [assumption|].
          intros q. rewrite E3. split; [intros [x [H1 [H2 _]]]; eauto|].
          intros [x [H1 H2]]. exists x. repeat split; auto. apply Hin; eauto.
        + apply IH; [lia|assumption|].
          intros q. rewrite Hin'. split; [tauto|]. intros [x [Hx Ex]].
          split; [|eauto]. apply Hin. exists x. split; [assumption|].
          rewrite <- Ex, firstn_pkey. reflexivity.
    Qed.

    Lemma split_bucket_ok : b <> [] ->
      exists ks, split_bucket names b = Ok (map (cls hseq b) ks) /\ NoDup ks /\
        (forall q, In q ks <-> exists x, In x b /\ hseq x = q).
    Proof.
      intros Hne. unfold split_bucket. destruct b as [|t [|t2 b']] eqn:Eb; [congruence| |].
      - exists [hseq t]. split; [|split].
        + cbn. unfold cls; cbn. replace (keyb keyN_dec hseq (hseq t) t) with true; [reflexivity|].
          symmetry; apply keyb_true; reflexivity.
        + repeat constructor. intros [].
        + intros q; cbn. split; [intros [<-|[]]; exists t; auto|]. intros [x [[<-|[]] <-]]; auto.
      - rewrite <- Eb in *.
        assert (Hn : length (names t) = n) by (apply Hlen; rewrite Eb; left; reflexivity).
        rewrite Hn.
        assert (E0 : [b] = map (cls (pkey 0) b) [[]]).
        { cbn. f_equal. unfold cls. symmetry. apply filter_all. intros x _. apply keyb_true. reflexivity. }
        rewrite E0. apply refine_loop_ok; [lia|repeat constructor; intros []|].
        intros q; cbn. split.
        + intros [<-|[]]. exists t. split; [rewrite Eb; left; reflexivity|reflexivity].
        + intros [x [_ <-]]. left; reflexivity.
    Qed.
  End Bucket.

  Lemma mapM_map_concat (ls : list nat) (log : list T) :
    NoDup ls -> (forall l, In l ls -> exists t, In t log /\ length (names t) = l) ->
    exists ks,
      mapM (split_bucket names) (map (fun l => filter (keyb Nat.eq_dec (fun t => length (names t)) l) log) ls)
        = Ok (map (fun l => map (cls hseq log) (filter (fun q => length q =? l) ks)) ls) /\
      NoDup ks /\ (forall q, In q ks <-> (exists x, In x log /\ hseq x = q) /\ In (length q) ls).
  Proof.
    induction ls as [|l ls IH]; intros Hnd Hne.
    - exists []. cbn. repeat split; try constructor; try tauto.
    - inversion Hnd as [|? ? Hl Hnd']; subst.
      destruct IH as [ks [E [Hk Hin]]]; [assumption|intros; apply Hne; right; assumption|].
      set (b := filter (keyb Nat.eq_dec (fun t => length (names t)) l) log).
      assert (Hb : forall t, In t b <-> In t log /\ length (names t) = l)
        by (intros t; unfold b; rewrite filter_In, keyb_true; reflexivity).
      destruct (split_bucket_ok b l) as [kb [Eb [Hkb Hkin]]].
      { intros t Ht; apply Hb; exact Ht. }
      { destruct (Hne l (or_introl eq_refl)) as [t [H1 H2]]. intros E0.
        assert (Htb : In t b) by (apply Hb; auto). rewrite E0 in Htb. contradiction. }
      assert (Hlq : forall q, In q kb -> length q = l).
      { intros q Hq. apply Hkin in Hq. destruct Hq as [x [Hx <-]]. unfold hseq. rewrite map_length. apply Hb; exact Hx. }
      assert (Hlk : forall q, In q ks -> length q <> l).
      { intros q Hq E0. apply Hin in Hq. destruct Hq as [_ Hq]. rewrite E0 in Hq. contradiction. }
      exists (kb ++ ks). split; [|split].
      + cbn [map mapM]. fold b. rewrite Eb. cbn [bind]. rewrite E. cbn [bind]. f_equal. f_equal.
        * rewrite filter_app, (filter_all _ kb), (filter_none _ ks), app_nil_r.
          -- apply map_ext_in. intros q Hq. unfold cls, b. rewrite filter_filter_and.
             apply filter_ext. intros x. apply eq_true_iff_eq. rewrite andb_true_iff, !keyb_true.
             split; [tauto|]. intros Hx. split; [|assumption].
             rewrite <- (Hlq q Hq), <- Hx. unfold hseq. rewrite map_length; reflexivity.
          -- intros q Hq. apply Nat.eqb_neq. apply Hlk; exact Hq.
          -- intros q Hq. apply Nat.eqb_eq. apply Hlq; exact Hq.
        * apply map_ext_in. intros l2 Hl2. f_equal. rewrite filter_app, (filter_none _ kb); [reflexivity|].
          intros q Hq. apply Nat.eqb_neq. rewrite (Hlq q Hq). intros ->. contradiction.
      + apply NoDup_app; auto. intros q H1 H2. apply (Hlk q H2). apply Hlq; exact H1.
      + intros q. rewrite in_app_iff, Hkin, Hin. split.
        * intros [[x [Hx Ex]]|[H1 H2]].
          -- split; [exists x; split; [apply Hb; exact Hx|exact Ex]|].
             left. symmetry. apply Hlq. apply Hkin; eauto.
          -- split; [assumption|right; assumption].
        * intros [[x [Hx Ex]] [H|H]].
          -- left. exists x. split; [|exact Ex]. apply Hb. split; [assumption|].
             rewrite H, <- Ex. unfold hseq. rewrite map_length; reflexivity.
          -- right. split; [eauto|assumption].
  Qed.

  Lemma concat_classes (ls : list nat) (ks : list (list N)) (log : list T) :
    NoDup ls -> NoDup ks -> (forall q, In q ks -> In (length q) ls) ->
    exists ks', NoDup ks' /\ (forall q, In q ks' <-> In q ks) /\
      concat (map (fun l => map (cls hseq log) (filter (fun q => length q =? l) ks)) ls)
      = map (cls hseq log) ks'.
  Proof.
    intros Hls Hks Hcov.
    exists (concat (map (fun l => filter (keyb Nat.eq_dec (@length N) l) ks) ls)).
    assert (Ef : forall l, filter (fun q : list N => length q =? l) ks = filter (keyb Nat.eq_dec (@length N) l) ks).
    { intros l. apply filter_ext. intros q. apply eq_true_iff_eq. rewrite Nat.eqb_eq, keyb_true. reflexivity. }
    split; [|split].
    - apply Permutation_NoDup with (l := ks); [|assumption].
      symmetry. apply classes_perm; assumption.
    - intros q. split; intros H.
      + eapply Permutation_in; [apply (classes_perm Nat.eq_dec (@length N) ls ks Hls Hcov)|exact H].
      + eapply Permutation_in; [symmetry; apply (classes_perm Nat.eq_dec (@length N) ls ks Hls Hcov)|exact H].
    - rewrite concat_map, map_map. f_equal. apply map_ext. intros l. rewrite Ef. reflexivity.
  Qed.

  (** The complete characterisation of the split. *)
  Lemma split_ok log :
    exists ks, split_log_by_traces names log = Ok (map (cls hseq log) ks) /\ NoDup ks /\
      (forall q, In q ks <-> exists x, In x log /\ hseq x = q).
  Proof.
    unfold split_log_by_traces, traces_by_length.
    set (lenf := fun t : T => length (names t)).
    change (fold_left (fun d t => dpush Nat.eq_dec d (length (names t)) t) log [])
      with (group Nat.eq_dec lenf log []).
    set (ls := dkeys (group Nat.eq_dec lenf log [])).
    assert (Hls : forall l, In l ls <-> exists t, In t log /\ length (names t) = l).
    { intros l. unfold ls. rewrite group_keys. cbn. rewrite in_map_iff.
      split; [intros [[]|[x [H1 H2]]]; eauto|]. intros [x [H1 H2]]; right; eauto. }
    assert (Hnd : NoDup ls) by (apply group_NoDup; constructor).
    unfold dvalues. rewrite group_list, map_map. cbn [snd]. fold ls.
    destruct (mapM_map_concat ls log) as [ks [E [Hk Hin]]]; [assumption|apply Hls|].
    unfold lenf. rewrite E. cbn [bind].
    destruct (concat_classes ls ks log) as [ks' [Hk' [Hin' Ec]]];
      [assumption|assumption|intros q Hq; apply Hin; exact Hq|].
    exists ks'. rewrite Ec. split; [reflexivity|]. split; [assumption|].
    intros q. rewrite Hin', Hin. split; [tauto|]. intros [x [Hx Ex]]. split; [eauto|].
    apply Hls. exists x. split; [assumption|]. rewrite <- Ex. unfold hseq. rewrite map_length; reflexivity.
  Qed.

  Lemma nth_error_map_inv {A B} (f : A -> B) l i y :
    nth_error (map f l) i = Some y -> exists x, nth_error l i = Some x /\ y = f x.
  Proof.
    revert i; induction l as [|x l IH]; intros [|i] H; cbn in *; try discriminate.
    - injection H as <-; eauto.
    - auto.
  Qed.

  Lemma split_partition_proof log :
    exists groups, split_log_by_traces names log = Ok groups /\
      Permutation (concat groups) log /\
      forall g, In g groups ->
        g <> [] /\
        (forall t u, In t g -> In u g -> length (names t) = length (names u)) /\
        (exists P : T -> Prop, Deleted P log g).
  Proof.
    destruct (split_ok log) as [ks [E [Hnd Hin]]]. rewrite E.
    eexists; split; [reflexivity|]. split.
    - apply (classes_perm keyN_dec hseq ks log Hnd). intros x Hx. apply Hin; eauto.
    - intros g Hg. apply in_map_iff in Hg. destruct Hg as [q [<- Hq]].
      split; [|split].
      + apply Hin in Hq. destruct Hq as [x [Hx Ex]]. intros E0.
        assert (H : In x (cls hseq log q)) by (apply in_cls; auto). rewrite E0 in H. contradiction.
      + intros t u Ht Hu. apply in_cls in Ht. apply in_cls in Hu.
        assert (H : length (hseq t) = length (hseq u)) by (f_equal; destruct Ht, Hu; congruence).
        unfold hseq in H. rewrite !map_length in H. exact H.
      + exists (fun t => hseq t <> q). apply Deleted_filter.
        * intros t _. rewrite keyb_true. destruct (keyN_dec (hseq t) q); tauto.
        * intros t _. destruct (keyN_dec (hseq t) q); tauto.
  Qed.

  Lemma NoDup_nth_error_inj {A} (l : list A) i j x :
    NoDup l -> nth_error l i = Some x -> nth_error l j = Some x -> i = j.
  Proof.
    intros H Hi Hj. apply (proj1 (NoDup_nth_error l) H).
    - apply nth_error_Some. congruence.
    - congruence.
  Qed.

  Lemma split_same_group_proof log groups :
    split_log_by_traces names log = Ok groups ->
    forall i j gi gj t u,
      nth_error groups i = Some gi -> nth_error groups j = Some gj -> In t gi -> In u gj ->
      (i = j <-> map string_poly_hash (names t) = map string_poly_hash (names u)).
  Proof.
    destruct (split_ok log) as [ks [E [Hnd Hin]]]. rewrite E. intros H; injection H as <-.
    intros i j gi gj t u Hi Hj Ht Hu.
    apply nth_error_map_inv in Hi. apply nth_error_map_inv in Hj.
    destruct Hi as [q [Hi ->]], Hj as [r [Hj ->]].
    apply in_cls in Ht. apply in_cls in Hu. fold (hseq t). fold (hseq u).
    destruct Ht as [_ Ht], Hu as [_ Hu]. rewrite Ht, Hu. split.
    - intros ->. congruence.
    - intros ->. eapply NoDup_nth_error_inj; eassumption.
  Qed.

  Lemma map_inj_on {A B} (f : A -> B) l1 l2 :
    (forall x y, In x l1 -> In y l2 -> f x = f y -> x = y) -> map f l1 = map f l2 -> l1 = l2.
  Proof.
    revert l2; induction l1 as [|x l1 IH]; intros [|y l2] Hf E; cbn in E; try discriminate; [reflexivity|].
    injection E as E1 E2. f_equal.
    - apply Hf; cbn; auto.
    - apply IH; [|assumption]. intros; apply Hf; cbn; auto.
  Qed.

  Lemma split_variants_proof log groups :
    collision_free_names names log ->
    split_log_by_traces names log = Ok groups ->
    forall i j gi gj t u,
      nth_error groups i = Some gi -> nth_error groups j = Some gj -> In t gi -> In u gj ->
      (i = j <-> names t = names u).
  Proof.
    intros Hcf H i j gi gj t u Hi Hj Ht Hu.
    rewrite (split_same_group_proof log groups H i j gi gj t u Hi Hj Ht Hu).
    split; [|congruence].
    assert (Hm : forall g k x, nth_error groups k = Some g -> In x g -> In x log).
    { intros g k x Hk Hx. destruct (split_ok log) as [ks [E [Hnd Hin]]]. rewrite E in H.
      injection H as <-. apply nth_error_In in Hk. apply in_map_iff in Hk. destruct Hk as [q [<- _]].
      apply in_cls in Hx. tauto. }
    apply map_inj_on. intros n m Hn Hm2. eapply Hcf; [| |exact Hn|exact Hm2]; eauto.
  Qed.

  Lemma variants_ok log :
    exists ks reps, filter_traces_by_variants names log = Ok reps /\ NoDup ks /\
      (forall q, In q ks <-> exists x, In x log /\ hseq x = q) /\
      Forall2 (fun q r => In r log /\ hseq r = q) ks reps.
  Proof.
    destruct (split_ok log) as [ks [E [Hnd Hin]]].
    unfold filter_traces_by_variants. rewrite E. cbn [bind].
    assert (Hs : forall l, (forall q, In q l -> In q ks) ->
       exists reps, mapM (fun g => match g with [] => Err IndexError | t :: _ => Ok t end)
                         (map (cls hseq log) l) = Ok reps /\
                    Forall2 (fun q r => In r log /\ hseq r = q) l reps).
    { induction l as [|q l IH]; intros Hsub; cbn.
      - exists []. split; [reflexivity|constructor].
      - destruct IH as [reps [E1 E2]]; [intros; apply Hsub; right; assumption|].
        destruct (cls hseq log q) as [|r g] eqn:Ec.
        + exfalso. destruct (proj1 (Hin q) (Hsub q (or_introl eq_refl))) as [x [Hx Ex]].
          assert (H : In x (cls hseq log q)) by (apply in_cls; auto). rewrite Ec in H. contradiction.
        + exists (r :: reps). cbn. rewrite E1. cbn. split; [reflexivity|].
          constructor; [|assumption]. apply in_cls. rewrite Ec. left; reflexivity. }
    destruct (Hs ks (fun q H => H)) as [reps [E1 E2]].
    exists ks, reps. auto.
  Qed.

  Lemma variants_proof log :
    collision_free_names names log ->
    exists reps, filter_traces_by_variants names log = Ok reps /\
      (forall r, In r reps -> In r log) /\
      (forall t, In t log -> exists r, In r reps /\ names r = names t) /\
      NoDup (map names reps).
  Proof.
    intros Hcf. destruct (variants_ok log) as [ks [reps [E [Hnd [Hin Hf]]]]].
    exists reps. split; [assumption|].
    assert (Hsub : forall r, In r reps -> In r log).
    { clear -Hf. induction Hf as [|q r ks reps [H1 H2] Hf IH]; intros x Hx; [contradiction|].
      destruct Hx as [<-|Hx]; auto. }
    assert (Hinj : forall r t, In r log -> In t log -> hseq r = hseq t -> names r = names t).
    { intros r t Hr Ht H. apply (map_inj_on string_poly_hash); [|exact H].
      intros n m Hn Hm. apply (Hcf r t n m Hr Ht Hn Hm). }
    assert (Hkeys : map hseq reps = ks).
    { clear -Hf. induction Hf as [|q r ks reps [H1 H2] Hf IH]; cbn; congruence. }
    split; [assumption|]. split.
    - intros t Ht. assert (H : In (hseq t) ks) by (apply Hin; eauto).
      rewrite <- Hkeys in H. apply in_map_iff in H. destruct H as [r [Hr1 Hr2]]. exists r. auto.
    - rewrite <- Hkeys in Hnd. clear -Hnd Hsub.
      induction reps as [|r reps IH]; cbn in *; constructor.
      + inversion Hnd as [|? ? Hr Hnd']; subst. intros H. apply Hr.
        apply in_map_iff in H. destruct H as [r' [H1 H2]]. apply in_map_iff. exists r'. split; [|assumption].
        unfold hseq. rewrite H1. reflexivity.
      + inversion Hnd; subst. apply IH; auto.
  Qed.
End SplitProofs.

(* merge *)
Lemma merge_traces_spec {E} (mk : pystr -> E) log uuids i :
  Merged log (map (fun j => mk (uuids j)) (seq i (length log))) (merge_traces mk log uuids i).
Proof.
  revert i; induction log as [|t log IH]; intros i; cbn; constructor. apply IH.
Qed.

Lemma merge_proof {E} (mk : pystr -> E) log uuids :
  exists seps out,
    merge_all_traces_in_one_log mk log uuids = [out] /\ Merged log seps out /\
    length seps = length log /\
    (forall s, In s seps -> exists j, j < length log /\ s = mk (uuids j)) /\
    ((forall a b, mk a = mk b -> a = b) ->
     (forall i j, i < length log -> j < length log -> uuids i = uuids j -> i = j) -> NoDup seps) /\
    ((forall j e t, j < length log -> In t log -> In e t -> e <> mk (uuids j)) ->
     forall s t, In s seps -> In t log -> ~ In s t).
Proof.
  exists (map (fun j => mk (uuids j)) (seq 0 (length log))), (merge_traces mk log uuids 0).
  split; [reflexivity|]. split; [apply merge_traces_spec|].
  split; [rewrite map_length, seq_length; reflexivity|].
  assert (Hs : forall s, In s (map (fun j => mk (uuids j)) (seq 0 (length log))) ->
                exists j, j < length log /\ s = mk (uuids j)).
  { intros s Hs. apply in_map_iff in Hs. destruct Hs as [j [<- Hj]]. apply in_seq in Hj.
    exists j; split; [lia|reflexivity]. }
  split; [exact Hs|]. split.
  - intros Hmk Hu.
    assert (H : forall k, k <= length log -> NoDup (map (fun j => mk (uuids j)) (seq (length log - k) k))).
    { induction k as [|k IHk]; intros Hk; cbn; constructor.
      - intros Hin. apply in_map_iff in Hin. destruct Hin as [j [Ej Hj]]. apply in_seq in Hj.
        apply Hmk, Hu in Ej; lia.
      - replace (S (length log - S k)) with (length log - k) by lia. apply IHk. lia. }
    specialize (H (length log) (le_n _)). rewrite Nat.sub_diag in H. exact H.
  - intros Hf s t Hin Ht Hst. destruct (Hs s Hin) as [j [Hj ->]]. exact (Hf j _ t Hj Ht Hst eq_refl).
Qed.
