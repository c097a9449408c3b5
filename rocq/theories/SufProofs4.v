(** Finding a word in the tree. *)
From Coq Require Import Permutation Sorting.Sorted.
From Verif Require Import Py PyFacts ReplayModel RInfoModel RInfoSpec SufModel SufSpec SufProofs1 SufProofs2 SufProofs3.

Lemma insert_pair_perm x l : Permutation (insert_pair x l) (x :: l).
Proof.
  induction l as [|y l IH]; cbn; [ constructor; constructor | ]. destruct (pair_leb x y); [ reflexivity | ].
  rewrite IH. constructor.
Qed.
Lemma sort_pairs_perm l : Permutation (sort_pairs l) l.
Proof. induction l as [|x l IH]; cbn; [ constructor | ]. rewrite insert_pair_perm. now constructor. Qed.
Lemma pair_leb_spec a b : pair_leb a b = true <-> fst a < fst b \/ (fst a = fst b /\ snd a <= snd b).
Proof. unfold pair_leb. rewrite orb_true_iff, andb_true_iff, Nat.ltb_lt, Nat.eqb_eq, Nat.leb_le. reflexivity. Qed.
Lemma insert_pair_sorted x l : StronglySorted pair_le l -> StronglySorted pair_le (insert_pair x l).
Proof.
  induction 1 as [|y l H IH HF]; cbn; [ constructor; constructor | ]. destruct (pair_leb x y) eqn:E.
  - apply pair_leb_spec in E. constructor; [ now constructor | ]. constructor; [ exact E | ].
    eapply Forall_impl; [ | exact HF ]. intros z Hz. unfold pair_le in *. lia.
  - constructor; [ exact IH | ]. eapply Permutation_Forall; [ symmetry; apply insert_pair_perm | ]. constructor; [ | exact HF ].
    assert (~ pair_le x y) by (intros H2; apply pair_leb_spec in H2; congruence). unfold pair_le in *. lia.
Qed.
Lemma sort_pairs_sorted l : StronglySorted pair_le (sort_pairs l).
Proof. induction l; cbn; [ constructor | ]. now apply insert_pair_sorted. Qed.

Lemma mapM_all {A B} (f : A -> result B) (P : A -> B -> Prop) l : (forall x, In x l -> exists y, f x = Ok y /\ P x y) -> exists ys, mapM f l = Ok ys /\ Forall2 P l ys.
Proof.
  induction l as [|x l IH]; intros H; [ exists []; split; [ easy | constructor ] | ].
  destruct (H x (or_introl eq_refl)) as (y & E & Hy). destruct IH as (ys & E2 & H2); [ intros z Hz; apply H; now right | ].
  exists (y :: ys). cbn. rewrite E. cbn. rewrite E2. split; [ easy | now constructor ].
Qed.
Lemma concat_In2 {A B} (P : A -> list B -> Prop) l ys x : Forall2 P l ys -> In x (concat ys) -> exists a y, In a l /\ P a y /\ In x y.
Proof.
  induction 1 as [|a y l ys H1 H2 IH]; cbn; [ easy | ]. rewrite in_app_iff. intros [H|H]; [ exists a, y; auto | ].
  destruct (IH H) as (a' & y' & ? & ? & ?). exists a', y'. auto.
Qed.
Lemma In_concat2 {A B} (P : A -> list B -> Prop) l ys a : Forall2 P l ys -> In a l -> exists y, P a y /\ forall x, In x y -> In x (concat ys).
Proof.
  induction 1 as [|b y l ys H1 H2 IH]; cbn; [ easy | ]. intros [->|H].
  - exists y. split; [ easy | ]. intros. apply in_app_iff. now left.
  - destruct (IH H) as (y' & ? & ?). exists y'. split; [ easy | ]. intros. apply in_app_iff. auto.
Qed.
Lemma concat_NoDup2 {A B C} (P : A -> list B -> Prop) (key : A -> C) (g : B -> C) l ys :
  Forall2 P l ys -> (forall a y, In a l -> P a y -> NoDup y /\ forall x, In x y -> g x = key a) -> NoDup (map key l) -> NoDup (concat ys).
Proof.
  induction 1 as [|a y l ys H1 H2 IH]; intros HP HN; [ constructor | ]. cbn in *. inversion HN as [|? ? N1 N2]; subst.
  destruct (HP a y (or_introl eq_refl) H1) as (Q1 & Q2).
  assert (HI : NoDup (concat ys)) by (apply IH; [ intros; apply HP; auto | easy ]).
  clear IH. revert Q1 Q2. generalize y. intros y0 Q1 Q2.
  induction Q1 as [|x y0 Q3 Q4 IH]; cbn; [ easy | ]. constructor.
  - rewrite in_app_iff. intros [H|H]; [ easy | ]. destruct (concat_In2 _ _ _ _ H2 H) as (a' & y' & R1 & R2 & R3).
    destruct (HP a' y' (or_intror R1) R2) as (_ & R4). specialize (R4 _ R3). specialize (Q2 x (or_introl eq_refl)).
    apply N1. rewrite <- Q2, R4. now apply in_map.
  - apply IH. intros z Hz. apply Q2. now right.
Qed.

Section Tree.
  Variable sl : slice.
  Notation get := (sl_get sl).
  Notation n := (sl_len sl).
  Notation sub := (sub (sl_get sl)).
  Notation wf := (wf sl).
  Notation trie := (trie sl).
  Variable ord : nat -> forall A : Type, list A -> list A.
  Hypothesis O : any_order ord.

  Section Fixed.
    Variables (k : nat) (nodes : list snode) (path : nat -> list (option N)).
    Hypothesis W : wf k nodes path [] [].
    Hypothesis K : 0 < k.

    (** The suffixes below a node. *)
    Definition under (v : nat) (s : nat) : Prop := s < k /\ prefix (path v) (sub s n).

    Lemma leaf_under v nd : nth_error nodes v = Some nd -> v <> 0 -> sn_children nd = [] ->
      length (path v) <= n /\ path v = sub (n - length (path v)) n /\ forall s, under v s <-> s = n - length (path v).
    Proof.
      intros Hv Hv0 Hc. pose proof (proj1 (w_leaf _ _ _ _ _ _ W v nd Hv0 Hv) Hc) as Hr.
      destruct (w_node _ _ _ _ _ _ W v nd Hv0 Hv) as (q & qd & E1 & E2 & E3 & E4 & E5 & E6 & E7 & E8 & E9).
      rewrite Hr in E7, E8, E9. split; [ easy | ]. split; [ easy | ]. intros s. split.
      - intros (Hs & HP). pose proof (prefix_length _ _ HP) as HL. rewrite sub_length in HL.
        destruct (Nat.eq_dec (length (path v)) (n - s)) as [He|He].
        + pose proof (w_bound _ _ _ _ _ _ W). lia.
        + destruct (next_child _ _ _ _ _ _ W v nd s Hv Hs HP ltac:(lia)) as (c & cn & C & _). now rewrite Hc in C.
      - intros ->. split; [ easy | ]. rewrite <- E8. apply prefix_refl.
    Qed.
    Lemma root_inner nd : nth_error nodes 0 = Some nd -> sn_children nd <> [].
    Proof.
      intros H Z. pose proof (w_bound _ _ _ _ _ _ W).
      destruct (next_child _ _ _ _ _ _ W 0 nd 0 H K) as (c & cn & C & _); [ rewrite (w_root_path _ _ _ _ _ _ W); apply prefix_nil | | ].
      - rewrite (w_root_path _ _ _ _ _ _ W). cbn. lia.
      - now rewrite Z in C.
    Qed.
    Lemma inner_under v nd s : nth_error nodes v = Some nd -> sn_children nd <> [] ->
      under v s <-> exists c, dget oeq_dec (sn_children nd) (get (s + length (path v))) = Some c /\ under c s.
    Proof.
      intros Hv Hc. split.
      - intros (Hs & HP).
        assert (HL : length (path v) < n - s).
        { pose proof (prefix_length _ _ HP) as HL. rewrite sub_length in HL. destruct (Nat.eq_dec (length (path v)) (n - s)) as [He|]; [ exfalso | lia ].
          pose proof (prefix_longer_eq _ _ HP ltac:(rewrite sub_length; lia)) as E.
          destruct (w_suffix _ _ _ _ _ _ W s Hs) as (l & ln & L1 & L2 & L3 & L4).
          assert (v = l) by (apply (path_inj _ _ _ _ _ _ W v nd l ln); congruence). subst l.
          apply Hc. apply (w_leaf _ _ _ _ _ _ W v nd L2 Hv). congruence. }
        destruct (next_child _ _ _ _ _ _ W v nd s Hv Hs HP HL) as (c & cn & C1 & C2 & C3 & C4). exists c. split; [ easy | split; easy ].
      - intros (c & C1 & Hs & HP). split; [ easy | ]. destruct (w_child _ _ _ _ _ _ W v nd _ c Hv C1) as (cn & D1 & D2 & D3 & D4).
        destruct (parent_path _ _ _ _ _ _ W _ _ _ D1 D3) as (_ & _ & E & _). eapply prefix_trans; [ | exact HP ]. rewrite E. apply prefix_app.
    Qed.
    (** The element after the path of a node, for the suffixes below one of its children. *)
    Lemma child_after v nd x c s : nth_error nodes v = Some nd -> dget oeq_dec (sn_children nd) x = Some c -> under c s ->
      get (s + length (path v)) = x /\ s + length (path v) < n.
    Proof.
      intros Hv Hc (Hs & HP). destruct (w_child _ _ _ _ _ _ W v nd _ c Hv Hc) as (cn & D1 & D2 & D3 & D4).
      destruct (parent_path _ _ _ _ _ _ W _ _ _ D1 D3) as (_ & _ & E & El).
      destruct (elen_node _ _ _ _ _ _ W _ _ _ D1 D3) as (M1 & M2).
      pose proof (prefix_length _ _ HP) as HL. rewrite sub_length in HL.
      assert (N1 : nth_error (sub s n) (length (path v)) = Some (get (sn_left cn))).
      { rewrite (prefix_nth _ _ _ HP) by lia. rewrite E, nth_error_app2, Nat.sub_diag by lia. rewrite sub_nth by lia. now rewrite Nat.add_0_r. }
      rewrite sub_nth in N1 by lia. split; [ congruence | lia ].
    Qed.
    Lemma node_bound v nd : nth_error nodes v = Some nd -> length (path v) <= n.
    Proof.
      intros H. destruct (Nat.eq_dec v 0) as [->|Hv]; [ rewrite (w_root_path _ _ _ _ _ _ W); cbn; lia | ].
      destruct (w_node _ _ _ _ _ _ W v nd Hv H) as (q & qd & _ & _ & _ & E4 & _ & _ & E7 & _). lia.
    Qed.
    Lemma is_leaf_spec nd : is_leaf nd = true <-> sn_children nd = [].
    Proof. unfold is_leaf. now destruct (sn_children nd). Qed.
    Lemma child_In v nd x c : nth_error nodes v = Some nd -> In (x, c) (sn_children nd) -> dget oeq_dec (sn_children nd) x = Some c.
    Proof. intros H. apply In_dget. eapply w_keys; eauto. Qed.

    (** Where the suffixes below a node begin, each once. *)
    Lemma dfs_patterns_ok m : forall fuel v nd suf, nth_error nodes v = Some nd -> suf + elen nd = length (path v) -> n - length (path v) < fuel ->
      exists l, dfs_patterns sl ord fuel nodes v m suf = Ok l /\ NoDup l /\ forall x, In x l <-> under v (fst x) /\ snd x = fst x + m.
    Proof.
      induction fuel as [|fuel IH]; [ lia | ]. intros v nd suf Hv Hsuf Hfuel. cbn [dfs_patterns]. unfold node_at at 1. rewrite Hv. cbn [bind].
      rewrite Hsuf. destruct (is_leaf nd) eqn:El.
      - apply is_leaf_spec in El.
        assert (Hv0 : v <> 0) by (intros ->; now apply (root_inner nd)).
        destruct (leaf_under v nd Hv Hv0 El) as (L1 & L2 & L3). eexists. split; [ reflexivity | ]. split; [ repeat constructor; easy | ].
        intros (s, e). cbn. rewrite L3. split.
        + intros [H|[]]. injection H as <- <-. auto.
        + intros (-> & ->). auto.
      - assert (El' : sn_children nd <> []) by (intros Z; apply is_leaf_spec in Z; congruence).
        destruct (mapM_all (fun kc => dfs_patterns sl ord fuel nodes (snd kc) m (length (path v)))
                    (fun kc l => NoDup l /\ forall x, In x l <-> under (snd kc) (fst x) /\ snd x = fst x + m) (ord v _ (sn_children nd))) as (ys & Y1 & Y2).
        { intros (x, c) Hx. apply (Permutation_in _ (O v _ _)) in Hx. pose proof (child_In v nd x c Hv Hx) as Hc.
          destruct (w_child _ _ _ _ _ _ W v nd x c Hv Hc) as (cn & C1 & C2 & C3 & C4).
          destruct (elen_node _ _ _ _ _ _ W _ _ _ C1 C3) as (M1 & M2). cbn [snd].
          pose proof (node_bound c cn C1). destruct (IH c cn (length (path v)) C1) as (l & Hl & Hl2); [ lia | lia | eauto ]. }
        rewrite Y1. cbn [bind]. exists (concat ys). split; [ reflexivity | ]. split.
        + eapply (concat_NoDup2 _ fst (fun x => get (fst x + length (path v)))); [ exact Y2 | | ].
          * intros (x, c) y Hx (Q1 & Q2). split; [ exact Q1 | ]. intros z Hz. apply Q2 in Hz. destruct Hz as (Hz & _). cbn [fst snd] in *.
            apply (Permutation_in _ (O v _ _)) in Hx. pose proof (child_In v nd x c Hv Hx) as Hc. now apply (child_after v nd x c).
          * eapply Permutation_NoDup; [ symmetry; apply Permutation_map, (O v _ _) | ]. eapply w_keys; eauto.
        + intros x. split.
          * intros Hx. destruct (concat_In2 _ _ _ _ Y2 Hx) as ((y, c) & l & A1 & (A2 & A3) & A4). apply A3 in A4. destruct A4 as (A4 & A5). split; [ | exact A5 ].
            apply (Permutation_in _ (O v _ _)) in A1. pose proof (child_In v nd y c Hv A1) as Hc. apply (inner_under v nd _ Hv El'). cbn [snd] in *.
            exists c. split; [ | exact A4 ]. destruct (child_after v nd y c _ Hv Hc A4) as (-> & _). exact Hc.
          * intros (Hu & He). apply (inner_under v nd _ Hv El') in Hu. destruct Hu as (c & C1 & C2).
            destruct (In_concat2 _ _ _ (get (fst x + length (path v)), c) Y2) as (l & (Q1 & Q2) & Q3).
            { apply (Permutation_in _ (Permutation_sym (O v _ _))). now apply (dget_In oeq_dec). }
            apply Q3, Q2. auto.
    Qed.

    (** Comparing an edge with the pattern. *)
    Lemma match_edge_ok pattern : forall len left i, i <= length pattern ->
      match_edge sl pattern (seq left len) i =
      Ok (if list_eq_dec oeq_dec (firstn (min len (length pattern - i)) (sub left (left + len))) (firstn (min len (length pattern - i)) (map Some (skipn i pattern)))
          then Some (i + min len (length pattern - i)) else None).
    Proof.
      induction len as [|len IH]; intros left i Hi.
      - cbn. now rewrite Nat.add_0_r.
      - cbn [seq match_edge]. destruct (i =? length pattern) eqn:E.
        + apply Nat.eqb_eq in E. replace (length pattern - i) with 0 by lia. rewrite Nat.min_0_r. cbn. now rewrite Nat.add_0_r.
        + apply Nat.eqb_neq in E. destruct (nth_error pattern i) as [x|] eqn:Ex; [ | apply nth_error_None in Ex; lia ]. cbn [unwrap bind].
          assert (Es : skipn i pattern = x :: skipn (S i) pattern).
          { clear -Ex. revert i Ex. induction pattern as [|y pattern IHp]; intros [|i] Ex; cbn in *; try easy; [ congruence | now apply IHp ]. }
          rewrite Es. replace (length pattern - i) with (S (length pattern - S i)) by lia. rewrite <- Nat.succ_min_distr.
          rewrite (sub_cons _ left (left + S len)) by lia. cbn [firstn map].
          destruct (get left) as [y|] eqn:Ey.
          * destruct (N.eqb y x) eqn:Exy.
            -- apply N.eqb_eq in Exy. subst y. rewrite IH by lia. rewrite Nat.add_1_r. replace (S left + len) with (left + S len) by lia.
               f_equal. destruct (list_eq_dec oeq_dec (firstn (min len (length pattern - S i)) (sub (S left) (left + S len))) _) as [Q|Q].
               ++ rewrite Q. destruct (list_eq_dec oeq_dec _ _) as [_|R]; [ f_equal; lia | now elim R ].
               ++ destruct (list_eq_dec oeq_dec _ _) as [R|_]; [ elim Q; now injection R | easy ].
            -- apply N.eqb_neq in Exy. destruct (list_eq_dec oeq_dec _ _) as [R|_]; [ injection R; congruence | easy ].
          * destruct (list_eq_dec oeq_dec _ _) as [R|_]; [ injection R; congruence | easy ].
    Qed.

    (** The suffixes below the place of a word are those which begin with it. *)
    Lemma loc_under v p b : loc nodes path v p b -> forall s, under v s <-> s < k /\ prefix b (sub s n).
    Proof.
      intros L s. pose proof L as (nd & L1 & L2 & L3 & L4 & L5). split.
      - intros (Hs & HP). split; [ easy | ]. eapply prefix_trans; eauto.
      - intros (Hs & HP). split; [ easy | ]. destruct p as [|p].
        + rewrite (L3 eq_refl) in *. rewrite (w_root_path _ _ _ _ _ _ W). apply prefix_nil.
        + eapply loc_through; eauto. lia.
    Qed.

    (** Walking down the pattern: to the node below its place, or nowhere. *)
    Lemma walk_ok pattern : forall fuel v nd i p, nth_error nodes v = Some nd -> i <= length pattern -> length pattern - i < fuel ->
      loc nodes path v p (firstn i (map Some pattern)) -> (i < length pattern -> p = elen nd) ->
      (exists w p', walk sl fuel nodes pattern v i (length (path v)) = Ok (Some (w, length (path w))) /\ loc nodes path w p' (map Some pattern)) \/
      (walk sl fuel nodes pattern v i (length (path v)) = Ok None /\ ~ trie k (map Some pattern)).
    Proof.
      induction fuel as [|fuel IH]; [ lia | ]. intros v nd i p Hv Hi Hf L Hp. cbn [walk].
      destruct (i =? length pattern) eqn:E.
      { apply Nat.eqb_eq in E. left. exists v, p. split; [ easy | ]. rewrite E, <- (map_length Some), firstn_all in L. exact L. }
      apply Nat.eqb_neq in E. assert (Hi' : i < length pattern) by lia. rewrite (Hp Hi') in *. clear Hp.
      assert (NA : node_at nodes v = Ok nd) by (unfold node_at; now rewrite Hv). rewrite NA. cbn [bind].
      destruct (nth_error pattern i) as [x|] eqn:Ex; [ | apply nth_error_None in Ex; lia ]. cbn [unwrap bind].
      set (P := map Some pattern) in *.
      assert (LP : length P = length pattern) by apply map_length.
      assert (Enx : nth_error P i = Some (Some x)) by (unfold P; now rewrite nth_error_map, Ex).
      assert (Ev : path v = firstn i P).
      { destruct L as (nd' & L1 & L2 & L3 & L4 & L5). replace nd' with nd in * by congruence. symmetry. apply prefix_longer_eq; [ easy | ].
        rewrite firstn_length in *. lia. }
      assert (PL : length (path v) = i) by (rewrite Ev, firstn_length; lia).
      assert (FA : forall m, firstn (i + m) P = path v ++ firstn m (skipn i P)).
      { intros m. rewrite Ev. clear. revert i. generalize P. intros l. induction l as [|y l IHl]; intros [|i]; cbn; try easy; [ now rewrite firstn_nil | ]. now rewrite IHl. }
      assert (Es : skipn i P = Some x :: skipn (S i) P).
      { clear -Enx. revert i Enx. generalize P. intros l. induction l as [|y l IHp]; intros [|i] Ex; cbn in *; try easy; [ congruence | now apply IHp ]. }
      assert (PX : prefix (path v ++ [Some x]) P).
      { pose proof (FA 1) as FA1. rewrite Es in FA1. cbn [firstn] in FA1. rewrite <- FA1. exists (skipn (i + 1) P). now rewrite firstn_skipn. }
      destruct (dget oeq_dec (sn_children nd) (Some x)) as [c|] eqn:Ec.
      2: { right. split; [ easy | ]. intros T.
           assert (T2 : trie k (path v ++ [Some x])) by (eapply trie_prefix; eauto).
           apply (loc_continue _ _ _ _ _ _ W v (elen nd) _ nd _ Hv ltac:(eapply loc_node; eauto)) in T2. rewrite Nat.eqb_refl in T2.
           destruct T2 as (c & C). congruence. }
      destruct (w_child _ _ _ _ _ _ W v nd _ c Hv Ec) as (cn & C1 & C2 & C3 & C4).
      destruct (elen_node _ _ _ _ _ _ W _ _ _ C1 C3) as (M1 & M2).
      destruct (parent_path _ _ _ _ _ _ W _ _ _ C1 C3) as (_ & _ & Ep & El).
      assert (NC : node_at nodes c = Ok cn) by (unfold node_at; now rewrite C1). rewrite NC. cbn [bind]. rewrite match_edge_ok by lia. cbn [bind].
      replace (sn_left cn + elen cn) with (sn_right cn) by (unfold elen; lia).
      replace (map Some (skipn i pattern)) with (skipn i P) by (unfold P; now rewrite skipn_map).
      set (m := min (elen cn) (length pattern - i)).
      assert (Hm : 0 < m) by (unfold m; lia).
      assert (LC : loc nodes path c 1 (path v ++ [Some x])).
      { exists cn. repeat split; auto; try lia.
        - rewrite Ep, sub_cons, C4 by lia. exists (sub (S (sn_left cn)) (sn_right cn)). now rewrite <- app_assoc.
        - rewrite app_length. cbn. lia. }
      destruct (list_eq_dec oeq_dec _ _) as [Q|Q].
      - rewrite PL. replace (i + elen cn) with (length (path c)) by lia.
        apply (IH c cn (i + m) m C1); [ lia | lia | | lia ].
        exists cn. rewrite FA, <- Q. repeat split; auto; try lia.
        + rewrite Ep. exists (skipn m (sub (sn_left cn) (sn_right cn))). now rewrite <- app_assoc, firstn_skipn.
        + rewrite app_length, firstn_length, sub_length. unfold elen in *. lia.
      - right. split; [ easy | ]. intros (s & Hs & HP). apply Q.
        assert (T : prefix (path c) (sub s n)).
        { apply (loc_through _ _ _ _ _ _ W c 1 _ cn s C1 LC ltac:(lia) Hs). eapply prefix_trans; eauto. }
        destruct T as (r1 & T). destruct HP as (r2 & HP). rewrite Ep, HP in T. rewrite <- (firstn_skipn i P), <- Ev, <- !app_assoc in T.
        apply app_inv_head in T. apply (f_equal (firstn m)) in T. rewrite !firstn_app in T.
        rewrite sub_length, skipn_length in T. replace (m - (length P - i)) with 0 in T by lia.
        replace (m - (sn_right cn - sn_left cn)) with 0 in T by (unfold m, elen; lia). cbn [firstn] in T. rewrite !app_nil_r in T. now symmetry.
    Qed.

    Lemma find_patterns_ok pattern :
      (trie k (map Some pattern) /\ exists l, find_patterns sl ord nodes pattern = Ok (Some l) /\ StronglySorted pair_le l /\ NoDup l /\
          forall x, In x l <-> (fst x < k /\ prefix (map Some pattern) (sub (fst x) n)) /\ snd x = fst x + length pattern) \/
      (~ trie k (map Some pattern) /\ find_patterns sl ord nodes pattern = Ok None).
    Proof.
      destruct (w_root _ _ _ _ _ _ W) as (r & R1 & R2 & R3 & R4 & R5).
      pose proof (loc_node _ _ _ _ _ _ W 0 r R1) as L0. rewrite (w_root_path _ _ _ _ _ _ W) in L0.
      destruct (walk_ok pattern (S (length pattern)) 0 r 0 (elen r) R1 ltac:(lia) ltac:(lia) L0 ltac:(easy)) as [(w & p' & W1 & W2)|(W1 & W2)].
      - left. rewrite (w_root_path _ _ _ _ _ _ W) in W1. cbn [length] in W1. pose proof W2 as (wn & L1 & L2 & L3 & L4 & L5).
        assert (HE : elen wn <= length (path w)).
        { destruct (Nat.eq_dec w 0) as [->|Hw]; [ rewrite (root_elen _ _ _ _ _ _ W wn L1); lia | ].
          destruct (w_node _ _ _ _ _ _ W w wn Hw L1) as (q & qd & E1 & _). destruct (elen_node _ _ _ _ _ _ W _ _ _ L1 E1). lia. }
        destruct (dfs_patterns_ok (length pattern) (S n) w wn (length (path w) - elen wn) L1 ltac:(lia) ltac:(lia)) as (l & D1 & D2 & D3).
        split.
        + destruct (Nat.eq_dec w 0) as [->|Hw].
          * rewrite (w_root_path _ _ _ _ _ _ W) in L4. pose proof (prefix_length _ _ L4) as Z. cbn in Z.
            destruct (map Some pattern); [ | cbn in Z; lia ]. exists 0. split; [ easy | apply prefix_nil ].
          * eapply trie_prefix; [ exact L4 | ]. now apply (node_trie _ _ _ _ _ _ W w wn).
        + exists (sort_pairs l). unfold find_patterns. rewrite W1. cbn [bind]. unfold node_at. rewrite L1. cbn [bind]. rewrite D1. cbn [bind].
          split; [ easy | ]. split; [ apply sort_pairs_sorted | ]. split; [ eapply Permutation_NoDup; [ symmetry; apply sort_pairs_perm | exact D2 ] | ].
          intros x. rewrite (Permutation_in' eq_refl (sort_pairs_perm l)). rewrite D3. now rewrite (loc_under w p' _ W2).
      - right. rewrite (w_root_path _ _ _ _ _ _ W) in W1. cbn [length] in W1. split; [ easy | ]. unfold find_patterns. now rewrite W1.
    Qed.
  End Fixed.
End Tree.
