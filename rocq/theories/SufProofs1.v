(** Words cut out of a text, the invariant of a suffix tree and what it means to be at a place of the tree. *)
From Coq Require Import Permutation.
From Verif Require Import Py PyFacts ReplayModel SufModel.

Lemma oeqb_eq a b : oeqb a b = true <-> a = b.
Proof. unfold oeqb. destruct (oeq_dec a b); split; intros; try congruence; easy. Qed.
Lemma oeqb_neq a b : oeqb a b = false <-> a <> b.
Proof. unfold oeqb. destruct (oeq_dec a b); split; intros; try congruence; easy. Qed.

Definition prefix {A} (p q : list A) : Prop := exists r, q = p ++ r.
Lemma prefix_refl {A} (p : list A) : prefix p p.
Proof. exists []. now rewrite app_nil_r. Qed.
Lemma prefix_nil {A} (p : list A) : prefix [] p.
Proof. now exists p. Qed.
Lemma prefix_app {A} (p q : list A) : prefix p (p ++ q).
Proof. now exists q. Qed.
Lemma prefix_trans {A} (p q r : list A) : prefix p q -> prefix q r -> prefix p r.
Proof. intros [a ->] [b ->]. exists (a ++ b). now rewrite app_assoc. Qed.
Lemma prefix_length {A} (p q : list A) : prefix p q -> length p <= length q.
Proof. intros [a ->]. rewrite app_length. lia. Qed.
Lemma prefix_firstn {A} (p q : list A) : prefix p q -> p = firstn (length p) q.
Proof. intros [a ->]. rewrite firstn_app, firstn_all, Nat.sub_diag. cbn. now rewrite app_nil_r. Qed.
Lemma prefix_comparable {A} (p q r : list A) : prefix p r -> prefix q r -> length p <= length q -> prefix p q.
Proof.
  intros Hp Hq Hl. apply prefix_firstn in Hp. apply prefix_firstn in Hq.
  assert (E : firstn (length p) q = p). { rewrite Hq, firstn_firstn, Nat.min_l by easy. now rewrite <- Hp. }
  exists (skipn (length p) q). rewrite <- E at 1. now rewrite firstn_skipn.
Qed.
Lemma prefix_same_length {A} (p q r : list A) : prefix p r -> prefix q r -> length p = length q -> p = q.
Proof. intros Hp Hq Hl. apply prefix_firstn in Hp. apply prefix_firstn in Hq. now rewrite Hp, Hq, Hl. Qed.
Lemma prefix_nth {A} (p q : list A) i : prefix p q -> i < length p -> nth_error q i = nth_error p i.
Proof. intros [a ->] Hi. now rewrite nth_error_app1. Qed.
Lemma prefix_longer_eq {A} (p q : list A) : prefix p q -> length q <= length p -> p = q.
Proof. intros [a ->] H. rewrite app_length in H. destruct a; cbn in *; [ now rewrite app_nil_r | lia ]. Qed.
Lemma app_snoc_prefix {A} (p : list A) x q : prefix (p ++ [x]) q -> prefix p q /\ nth_error q (length p) = Some x.
Proof.
  intros [r ->]. split; [ exists (x :: r); now rewrite <- app_assoc | ].
  rewrite <- app_assoc, nth_error_app2, Nat.sub_diag by lia. reflexivity.
Qed.
Lemma prefix_snoc {A} (p : list A) x q : prefix p q -> nth_error q (length p) = Some x -> prefix (p ++ [x]) q.
Proof.
  intros [r ->] H. rewrite nth_error_app2, Nat.sub_diag in H by lia. destruct r as [|y r]; [ easy | ].
  injection H as ->. exists r. now rewrite <- app_assoc.
Qed.

Lemma upd_length nodes i f : length (upd nodes i f) = length nodes.
Proof. revert i. induction nodes; intros [|i]; cbn; auto. Qed.
Lemma nth_upd nodes i f j :
  nth_error (upd nodes i f) j = if j =? i then option_map f (nth_error nodes j) else nth_error nodes j.
Proof.
  revert i j. induction nodes as [|a nodes IH]; intros i j.
  - replace (nth_error (upd [] i f) j) with (@None snode) by (now destruct j). destruct j; cbn; [ now destruct i | destruct i; [ easy | now destruct (j =? i) ] ].
  - destruct i, j; cbn; auto.
Qed.
Lemma nth_snoc {A} (l : list A) x j :
  nth_error (l ++ [x]) j = if j =? length l then Some x else nth_error l j.
Proof.
  destruct (j =? length l) eqn:E.
  - apply Nat.eqb_eq in E. subst. rewrite nth_error_app2, Nat.sub_diag by lia. reflexivity.
  - apply Nat.eqb_neq in E. destruct (Nat.lt_ge_cases j (length l)) as [H|H].
    + now rewrite nth_error_app1.
    + assert (H1 : nth_error (l ++ [x]) j = None) by (apply nth_error_None; rewrite app_length; cbn; lia).
      assert (H2 : nth_error l j = None) by (apply nth_error_None; lia). now rewrite H1, H2.
Qed.
Lemma nth_lt {A} (l : list A) j x : nth_error l j = Some x -> j < length l.
Proof. intros H. apply nth_error_Some. congruence. Qed.

Section Text.
  Variable get : nat -> option N.

  Definition sub (a b : nat) : list (option N) := map get (seq a (b - a)).
  Lemma sub_length a b : length (sub a b) = b - a.
  Proof. unfold sub. now rewrite map_length, seq_length. Qed.
  Lemma sub_app a b c : a <= b -> b <= c -> sub a c = sub a b ++ sub b c.
  Proof.
    intros H1 H2. unfold sub. replace (c - a) with ((b - a) + (c - b)) by lia.
    rewrite seq_app, map_app. do 3 f_equal. lia.
  Qed.
  Lemma sub_nil a b : b <= a -> sub a b = [].
  Proof. intros H. unfold sub. now replace (b - a) with 0 by lia. Qed.
  Lemma sub_cons a b : a < b -> sub a b = get a :: sub (S a) b.
  Proof. intros H. unfold sub. now replace (b - a) with (S (b - S a)) by lia. Qed.
  Lemma sub_one a : sub a (S a) = [get a].
  Proof. unfold sub. now replace (S a - a) with 1 by lia. Qed.
  Lemma sub_snoc a b : a <= b -> sub a (S b) = sub a b ++ [get b].
  Proof. intros H. rewrite (sub_app a b (S b)) by lia. now rewrite sub_one. Qed.
  Lemma sub_nth a b i : i < b - a -> nth_error (sub a b) i = Some (get (a + i)).
  Proof.
    intros H. unfold sub. rewrite nth_error_map.
    rewrite (nth_error_nth' (seq a (b - a)) 0) by (rewrite seq_length; lia). rewrite seq_nth by lia. reflexivity.
  Qed.
  Lemma sub_prefix a b c : b <= c -> prefix (sub a b) (sub a c).
  Proof.
    intros H. destruct (Nat.le_gt_cases a b).
    - exists (sub b c). now apply sub_app.
    - rewrite (sub_nil a b) by lia. apply prefix_nil.
  Qed.
  Lemma prefix_sub p a b : prefix p (sub a b) -> p = sub a (a + length p).
  Proof.
    intros H. pose proof (prefix_length _ _ H) as Hl. rewrite sub_length in Hl.
    apply (prefix_same_length _ _ (sub a b) H).
    - destruct (Nat.eq_dec (length p) 0) as [Z|Z]; [ rewrite sub_nil by lia; apply prefix_nil | apply sub_prefix; lia ].
    - rewrite sub_length. lia.
  Qed.
  (** Cutting the same length out of equal words. *)
  Lemma sub_shift a b c d m : sub a b = sub c d -> m <= b - a -> sub a (a + m) = sub c (c + m).
  Proof.
    intros H Hm. assert (Hl : b - a = d - c) by (now rewrite <- !sub_length, H).
    assert (P : prefix (sub a (a + m)) (sub c d)) by (rewrite <- H; destruct m; [ rewrite sub_nil by lia; apply prefix_nil | apply sub_prefix; lia ]).
    pose proof (prefix_sub _ _ _ P) as E. rewrite E at 1. f_equal. rewrite sub_length. lia.
  Qed.
End Text.

Section Tree.
  Variable sl : slice.
  Notation get := (sl_get sl).
  Notation n := (sl_len sl).
  Notation sub := (sub (sl_get sl)).

  (** Equality of elements is decided by [sl_equals], except that the last element need not equal itself. *)
  Definition fair : Prop :=
    forall i j, i < n -> j < n -> ~ (S i = n /\ S j = n) -> sl_equals sl i j = oeqb (get i) (get j).

  (** A tree of the suffixes which begin before [k]; [path] is the word from the root.  The nodes of [ub] need not branch
      and those of [ul] need not have a link yet. *)
  Record wf (k : nat) (nodes : list snode) (path : nat -> list (option N)) (ub ul : list nat) : Prop := mkWf {
    w_root : exists r, nth_error nodes 0 = Some r /\ sn_left r = 0 /\ sn_right r = 0 /\ sn_parent r = None /\ sn_link r = None;
    w_root_path : path 0 = [];
    w_node : forall v nd, v <> 0 -> nth_error nodes v = Some nd -> exists p pd,
      sn_parent nd = Some p /\ nth_error nodes p = Some pd /\ sn_left nd < sn_right nd /\ sn_right nd <= n /\
      dget oeq_dec (sn_children pd) (get (sn_left nd)) = Some v /\ path v = path p ++ sub (sn_left nd) (sn_right nd) /\
      length (path v) <= sn_right nd /\ path v = sub (sn_right nd - length (path v)) (sn_right nd) /\ sn_right nd - length (path v) < k;
    w_child : forall p pd x c, nth_error nodes p = Some pd -> dget oeq_dec (sn_children pd) x = Some c ->
      exists nd, nth_error nodes c = Some nd /\ c <> 0 /\ sn_parent nd = Some p /\ get (sn_left nd) = x;
    w_keys : forall v nd, nth_error nodes v = Some nd -> NoDup (dkeys (sn_children nd));
    w_leaf : forall v nd, v <> 0 -> nth_error nodes v = Some nd -> (sn_children nd = [] <-> sn_right nd = n);
    w_suffix : forall s, s < k -> exists v nd, nth_error nodes v = Some nd /\ v <> 0 /\ sn_right nd = n /\ path v = sub s n;
    w_branch : forall v nd, v <> 0 -> nth_error nodes v = Some nd -> ~ In v ub -> sn_children nd <> [] ->
      exists x y, x <> y /\ In x (dkeys (sn_children nd)) /\ In y (dkeys (sn_children nd));
    w_link : forall v nd u, nth_error nodes v = Some nd -> sn_link nd = Some u ->
      v <> 0 /\ (exists un, nth_error nodes u = Some un) /\ exists x, path v = x :: path u;
    w_linked : forall v nd, v <> 0 -> nth_error nodes v = Some nd -> sn_children nd <> [] -> ~ In v ul -> exists u, sn_link nd = Some u;
    w_bound : k <= n }.

  (** At a node, or before its end after [p] > 0 elements of its edge: the place which the word [b] leads to. *)
  Definition loc (nodes : list snode) (path : nat -> list (option N)) (v p : nat) (b : list (option N)) : Prop :=
    exists nd, nth_error nodes v = Some nd /\ p <= elen nd /\ (p = 0 -> v = 0) /\ prefix b (path v) /\ length b + elen nd = length (path v) + p.
  (** Some suffix of the tree begins with the word. *)
  Definition trie (k : nat) (b : list (option N)) : Prop := exists s, s < k /\ prefix b (sub s n).

  Section Fixed.
    Variables (k : nat) (nodes : list snode) (path : nat -> list (option N)) (ub ul : list nat).
    Hypothesis W : wf k nodes path ub ul.

    Inductive anc : nat -> nat -> Prop :=
    | anc_refl v : anc v v
    | anc_up v p w nd : anc v p -> nth_error nodes w = Some nd -> sn_parent nd = Some p -> anc v w.
    Lemma anc_trans u v w : anc u v -> anc v w -> anc u w.
    Proof. intros H1 H2. induction H2 as [v|v p w nd H IH E1 E2]; [ easy | ]. exact (anc_up _ _ _ _ (IH H1) E1 E2). Qed.

    Lemma root_no_parent r : nth_error nodes 0 = Some r -> sn_parent r = None.
    Proof. intros H. destruct (w_root _ _ _ _ _ W) as (r' & H1 & _ & _ & H2 & _). congruence. Qed.
    Lemma root_elen r : nth_error nodes 0 = Some r -> elen r = 0.
    Proof. intros H. destruct (w_root _ _ _ _ _ W) as (r' & H1 & H2 & H3 & _). unfold elen. replace r with r' by congruence. lia. Qed.
    Lemma parent_path w nd p : nth_error nodes w = Some nd -> sn_parent nd = Some p ->
      w <> 0 /\ (exists pd, nth_error nodes p = Some pd /\ dget oeq_dec (sn_children pd) (get (sn_left nd)) = Some w) /\
      path w = path p ++ sub (sn_left nd) (sn_right nd) /\ sn_left nd < sn_right nd.
    Proof.
      intros H1 H2. assert (Hw : w <> 0) by (intros ->; pose proof (root_no_parent _ H1); congruence).
      destruct (w_node _ _ _ _ _ W w nd Hw H1) as (p' & pd & E1 & E2 & E3 & E4 & E5 & E6 & _).
      rewrite H2 in E1. injection E1 as <-. eauto 8.
    Qed.
    Lemma anc_prefix v w : anc v w -> prefix (path v) (path w).
    Proof.
      induction 1 as [v|v p w nd H IH H1 H2]; [ apply prefix_refl | ].
      destruct (parent_path _ _ _ H1 H2) as (_ & _ & E & _). eapply prefix_trans; [ exact IH | ]. rewrite E. apply prefix_app.
    Qed.
    Lemma anc_child v w : anc v w -> v = w \/ exists c cn, nth_error nodes c = Some cn /\ sn_parent cn = Some v /\ anc c w.
    Proof.
      induction 1 as [v|v p w nd H IH H1 H2]; [ now left | right ].
      destruct IH as [->|(c & cn & E1 & E2 & E3)].
      - exists w, nd. repeat split; auto. constructor.
      - exists c, cn. repeat split; auto. eapply anc_up; eauto.
    Qed.
    Lemma elen_node w nd p : nth_error nodes w = Some nd -> sn_parent nd = Some p -> 0 < elen nd /\ length (path w) = length (path p) + elen nd.
    Proof.
      intros H1 H2. destruct (parent_path _ _ _ H1 H2) as (_ & _ & E & L). split; [ unfold elen; lia | ].
      rewrite E, app_length, sub_length. reflexivity.
    Qed.
    Lemma root_anc : forall m w nd, length (path w) <= m -> nth_error nodes w = Some nd -> anc 0 w.
    Proof.
      induction m as [m IH] using lt_wf_ind. intros w nd Hm H. destruct (Nat.eq_dec w 0) as [->|Hw]; [ constructor | ].
      destruct (w_node _ _ _ _ _ W w nd Hw H) as (p & pd & E1 & E2 & _).
      destruct (elen_node _ _ _ H E1) as (L1 & L2).
      eapply anc_up; [ | exact H | exact E1 ]. apply (IH (length (path p))) with (nd := pd); [ lia | lia | exact E2 ].
    Qed.
    Lemma prefix_anc : forall m v vn w wn, length (path v) <= m -> nth_error nodes v = Some vn -> nth_error nodes w = Some wn ->
      prefix (path v) (path w) -> anc v w.
    Proof.
      induction m as [m IH] using lt_wf_ind. intros v vn w wn Hm Hv Hw HP.
      destruct (Nat.eq_dec v 0) as [->|Hv0]; [ now apply (root_anc (length (path w)) w wn) | ].
      destruct (w_node _ _ _ _ _ W v vn Hv0 Hv) as (p & pd & E1 & E2 & E3 & _ & E5 & E6 & _).
      destruct (elen_node _ _ _ Hv E1) as (L1 & L2).
      assert (HA : anc p w).
      { apply (IH (length (path p))) with (vn := pd) (wn := wn); auto; [ lia | ]. eapply prefix_trans; [ | exact HP ]. rewrite E6. apply prefix_app. }
      destruct (anc_child _ _ HA) as [->|(c & cn & C1 & C2 & C3)]; [ pose proof (prefix_length _ _ HP); lia | ].
      destruct (parent_path _ _ _ C1 C2) as (Hc0 & (pd' & D1 & D2) & D3 & D4).
      replace pd' with pd in * by congruence.
      assert (K : get (sn_left vn) = get (sn_left cn)).
      { assert (N1 : nth_error (path w) (length (path p)) = Some (get (sn_left vn))).
        { rewrite (prefix_nth _ _ _ HP) by lia. rewrite E6, nth_error_app2, Nat.sub_diag by lia. rewrite sub_nth by lia. now rewrite Nat.add_0_r. }
        assert (N2 : nth_error (path w) (length (path p)) = Some (get (sn_left cn))).
        { pose proof (elen_node _ _ _ C1 C2) as (M1 & M2).
          rewrite (prefix_nth _ _ _ (anc_prefix _ _ C3)) by lia. rewrite D3, nth_error_app2, Nat.sub_diag by lia. rewrite sub_nth by lia. now rewrite Nat.add_0_r. }
        congruence. }
      rewrite K in E5. rewrite E5 in D2. injection D2 as ->. exact C3.
    Qed.
    Lemma anc_eq v w : anc v w -> length (path w) <= length (path v) -> v = w.
    Proof.
      intros H L. destruct (anc_child _ _ H) as [?|(c & cn & C1 & C2 & C3)]; [ easy | ].
      pose proof (elen_node _ _ _ C1 C2). pose proof (prefix_length _ _ (anc_prefix _ _ C3)). lia.
    Qed.
    Lemma path_inj v vn w wn : nth_error nodes v = Some vn -> nth_error nodes w = Some wn -> path v = path w -> v = w.
    Proof.
      intros Hv Hw E. apply anc_eq; [ | rewrite E; lia ].
      eapply (prefix_anc (length (path v))); eauto. rewrite E. apply prefix_refl.
    Qed.
    (** The path of a node begins some suffix of the tree, and ends before the text does unless it is a leaf. *)
    Lemma node_trie v nd : nth_error nodes v = Some nd -> v <> 0 -> trie k (path v).
    Proof.
      intros H H0. destruct (w_node _ _ _ _ _ W v nd H0 H) as (p & pd & E1 & E2 & E3 & E4 & E5 & E6 & E7 & E8 & E9).
      exists (sn_right nd - length (path v)). split; [ exact E9 | ].
      rewrite E8 at 1. apply sub_prefix. lia.
    Qed.
    Lemma trie_prefix b b' : prefix b b' -> trie k b' -> trie k b.
    Proof. intros H (s & Hs & HP). exists s. split; [ easy | ]. eapply prefix_trans; eauto. Qed.

    (** From a node on the way to a suffix one of its children is on the way too. *)
    Lemma next_child v vn s : nth_error nodes v = Some vn -> s < k -> prefix (path v) (sub s n) -> length (path v) < n - s ->
      exists c cn, dget oeq_dec (sn_children vn) (get (s + length (path v))) = Some c /\ nth_error nodes c = Some cn /\
        sn_parent cn = Some v /\ prefix (path c) (sub s n).
    Proof.
      intros Hv Hs HP HL. destruct (w_suffix _ _ _ _ _ W s Hs) as (l & ln & L1 & L2 & L3 & L4).
      rewrite <- L4 in HP. pose proof (prefix_anc (length (path v)) v vn l ln ltac:(lia) Hv L1 HP) as HA.
      destruct (anc_child _ _ HA) as [->|(c & cn & C1 & C2 & C3)].
      { rewrite L4, sub_length in HL. lia. }
      destruct (parent_path _ _ _ C1 C2) as (Hc0 & (pd' & D1 & D2) & D3 & D4).
      replace pd' with vn in * by congruence.
      exists c, cn. repeat split; auto.
      - rewrite <- D2. f_equal.
        pose proof (elen_node _ _ _ C1 C2) as (M1 & M2).
        assert (N1 : nth_error (path l) (length (path v)) = Some (get (sn_left cn))).
        { rewrite (prefix_nth _ _ _ (anc_prefix _ _ C3)) by lia. rewrite D3, nth_error_app2, Nat.sub_diag by lia. rewrite sub_nth by lia. now rewrite Nat.add_0_r. }
        rewrite L4, sub_nth in N1 by lia. now injection N1.
      - rewrite <- L4. now apply anc_prefix.
    Qed.

    (** The element which follows in an edge. *)
    Lemma loc_next v p b nd : nth_error nodes v = Some nd -> loc nodes path v p b -> p < elen nd ->
      nth_error (path v) (length b) = Some (get (sn_left nd + p)) /\ v <> 0.
    Proof.
      intros Hv (nd' & L1 & L2 & L3 & L4 & L5) Hp. replace nd' with nd in * by congruence.
      assert (Hv0 : v <> 0). { intros ->. pose proof (root_elen _ Hv). lia. }
      split; [ | easy ].
      destruct (w_node _ _ _ _ _ W v nd Hv0 Hv) as (q & qd & E1 & E2 & E3 & E4 & E5 & E6 & E7 & E8 & E9).
      destruct (elen_node _ _ _ Hv E1) as (M1 & M2).
      rewrite E6, nth_error_app2 by lia. rewrite sub_nth by (unfold elen in *; lia). do 2 f_equal. lia.
    Qed.
    (** A suffix which leads into an edge leads through it. *)
    Lemma loc_through v p b nd s : nth_error nodes v = Some nd -> loc nodes path v p b -> 0 < p -> s < k -> prefix b (sub s n) ->
      prefix (path v) (sub s n).
    Proof.
      intros Hv (nd' & L1 & L2 & L3 & L4 & L5) Hp Hs HP. replace nd' with nd in * by congruence.
      assert (Hv0 : v <> 0). { intros ->. pose proof (root_elen _ Hv). lia. }
      destruct (w_node _ _ _ _ _ W v nd Hv0 Hv) as (q & qd & E1 & E2 & E3 & E4 & E5 & E6 & E7 & E8 & E9).
      destruct (elen_node _ _ _ Hv E1) as (M1 & M2).
      assert (Q : prefix (path q) b).
      { apply (prefix_comparable _ _ (path v)); auto; [ rewrite E6; apply prefix_app | lia ]. }
      pose proof (prefix_length _ _ HP) as PL. rewrite sub_length in PL.
      destruct (next_child q qd s E2 Hs (prefix_trans _ _ _ Q HP) ltac:(lia)) as (c & cn & C1 & C2 & C3 & C4).
      assert (K : get (s + length (path q)) = get (sn_left nd)).
      { assert (N1 : nth_error b (length (path q)) = Some (get (sn_left nd))).
        { rewrite <- (prefix_nth _ _ _ L4) by lia. rewrite E6, nth_error_app2, Nat.sub_diag by lia. rewrite sub_nth by lia. now rewrite Nat.add_0_r. }
        assert (N2 : nth_error b (length (path q)) = Some (get (s + length (path q)))).
        { rewrite <- (prefix_nth _ _ _ HP) by lia. now rewrite sub_nth by lia. }
        congruence. }
      rewrite K, E5 in C1. injection C1 as <-. exact C4.
    Qed.
    (** Which element can follow at a place. *)
    Lemma loc_continue v p b nd x : nth_error nodes v = Some nd -> loc nodes path v p b ->
      trie k (b ++ [x]) <-> (if p =? elen nd then exists c, dget oeq_dec (sn_children nd) x = Some c else get (sn_left nd + p) = x).
    Proof.
      intros Hv L. pose proof L as (nd' & L1 & L2 & L3 & L4 & L5). replace nd' with nd in * by congruence.
      destruct (p =? elen nd) eqn:Ep.
      - apply Nat.eqb_eq in Ep. assert (Eb : b = path v). { apply prefix_longer_eq; [ easy | lia ]. }
        subst b. split.
        + intros (s & Hs & HP). destruct (app_snoc_prefix _ _ _ HP) as (P1 & P2).
          pose proof (prefix_length _ _ HP) as PL. rewrite app_length, sub_length in PL. cbn in PL.
          destruct (next_child v nd s Hv Hs P1 ltac:(lia)) as (c & cn & C1 & _).
          rewrite sub_nth in P2 by lia. injection P2 as <-. eauto.
        + intros (c & Hc). destruct (w_child _ _ _ _ _ W v nd x c Hv Hc) as (cn & C1 & C2 & C3 & C4).
          destruct (parent_path _ _ _ C1 C3) as (_ & _ & E & L0).
          apply (trie_prefix _ (path c)); [ | now apply (node_trie c cn) ].
          rewrite E, sub_cons by lia. exists (sub (S (sn_left cn)) (sn_right cn)). rewrite <- app_assoc. cbn. now rewrite C4.
      - apply Nat.eqb_neq in Ep. destruct (loc_next v p b nd Hv L ltac:(lia)) as (N1 & Hv0).
        assert (Hp : 0 < p) by (destruct p; [ now elim Hv0; apply L3 | lia ]).
        split.
        + intros (s & Hs & HP). destruct (app_snoc_prefix _ _ _ HP) as (P1 & P2).
          pose proof (loc_through v p b nd s Hv L Hp Hs P1) as P3.
          pose proof (nth_lt _ _ _ N1) as NL.
          rewrite (prefix_nth _ _ _ P3 NL) in P2. congruence.
        + intros <-. apply (trie_prefix _ (path v)); [ | now apply (node_trie v nd) ].
          apply prefix_snoc; auto.
    Qed.
  End Fixed.
End Tree.
