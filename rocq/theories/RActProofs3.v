(** Proofs for C68: the forest of activities of the backend. *)
From Coq Require Import Sorting.Sorted Permutation.
From Verif Require Import Py PyFacts ReplayModel PatternModel PatternSpec PatternProofs RepeatProofs HighProofs RInfoSpec TreeModel TreeSpec TreeProofs RActModel RActSpec RActProofs1 RActProofs2.
From Verif Require SufModel.

Section Build.
  Context {D : Type}.
  Variable nodes : list (raw_node D).
  Hypothesis Hsorted : StronglySorted (fun a b => size b <= size a) nodes.
  Hypothesis Hnd : forall i, NoDup (set_at nodes i).
  Hypothesis Hdist : forall i j, i < length nodes -> j < length nodes -> included (set_at nodes i) (set_at nodes j) -> included (set_at nodes j) (set_at nodes i) -> i = j.

  Notation set_at := (set_at nodes).
  Notation sz := (sz nodes).
  Notation n := (length nodes).

  Lemma incl_size i j : i < n -> j < n -> i <> j -> included (set_at i) (set_at j) -> sz i < sz j.
  Proof.
    intros Hi Hj Hne Hinc. destruct (le_lt_dec (sz j) (sz i)) as [H|H]; [|exact H]. exfalso. apply Hne. apply Hdist; try assumption.
    apply NoDup_same_size; [apply Hnd|exact Hinc|exact H].
  Qed.
  Lemma incl_before i j : i < n -> j < n -> i <> j -> included (set_at i) (set_at j) -> j < i.
  Proof.
    intros Hi Hj Hne Hinc. pose proof (incl_size i j Hi Hj Hne Hinc). destruct (le_lt_dec i j) as [K|K]; [|exact K].
    pose proof (sz_mono nodes Hsorted i j K Hj). lia.
  Qed.

  Definition r_link (k c p : nat) : Prop :=
    k <= c /\ p < c /\ included (set_at c) (set_at p) /\ (k <= p \/ forall q, k <= q < c -> ~ included (set_at c) (set_at q)).
  Definition r_top (k t : nat) : Prop := t < k \/ forall q, q < t -> ~ included (set_at t) (set_at q).

  Record rinv (k i : nat) (st : tree_state) : Prop := {
    ri_links : forall c p, In (c, p) (ts_links st) <-> c < i /\ r_link k c p;
    ri_links_nd : NoDup (ts_links st);
    ri_tops : forall t, In t (ts_tops st) <-> t < i /\ r_top k t;
    ri_tops_nd : NoDup (ts_tops st);
    ri_levels : concat (ts_levels st) = seq k (i - k);
    ri_last : exists A l, ts_levels st = A ++ [l] /\ (forall x, In x l -> sz x = ts_length st) /\ (forall x, In x (concat A) -> ts_length st < sz x);
    ri_len : forall j, i <= j -> j < n -> sz j <= ts_length st
  }.

  Lemma in_filter_levels test (A : list (list nat)) p : In p (flat_map (filter test) (rev A)) <-> In p (concat A) /\ test p = true.
  Proof.
    rewrite in_flat_map, in_concat. split.
    - intros [l [H1 H2]]. apply filter_In in H2. split; [exists l; split; [apply in_rev; exact H1|apply H2]|apply H2].
    - intros [[l [H1 H2]] H3]. exists l. split; [apply in_rev; rewrite rev_involutive; exact H1|]. apply filter_In. split; assumption.
  Qed.
  Lemma filter_levels_nodup test (A : list (list nat)) : NoDup (concat A) -> NoDup (flat_map (filter test) (rev A)).
  Proof.
    intros H. apply (Permutation_NoDup (l := filter test (concat A))); [|apply NoDup_filter; exact H].
    clear H. induction A as [|a A IH]; [constructor|]. cbn [concat rev]. rewrite flat_map_app. cbn [flat_map]. rewrite app_nil_r, filter_app, IH. apply Permutation_app_comm.
  Qed.
  Lemma NoDup_app_l {A} (a b : list A) : NoDup (a ++ b) -> NoDup a.
  Proof. induction a as [|x a IH]; [constructor|]. cbn. intros H. inversion H; subst. constructor; [intros K; apply H2; apply in_or_app; left; exact K|apply IH; assumption]. Qed.
  Lemma NoDup_app_i {A} (a b : list A) : NoDup a -> NoDup b -> (forall x, In x a -> In x b -> False) -> NoDup (a ++ b).
  Proof. induction 1 as [|x a Hx Ha IH]; intros Hb H; [exact Hb|]. cbn. constructor; [|apply IH; [exact Hb|intros y Hy; apply H; right; exact Hy]]. intros K. apply in_app_or in K. destruct K as [K|K]; [contradiction|]. apply (H x (or_introl eq_refl) K). Qed.

  Lemma r_step_inv k i st : k <= i -> i < n -> rinv k i st -> rinv k (S i) (r_tree_step nodes st i).
  Proof.
    intros Hki Hi [P1 P1' P2 P2' P3 P4 P5]. unfold r_tree_step.
    set (ll := if length (set_at i) <? ts_length st then (ts_levels st ++ [[]], length (set_at i)) else (ts_levels st, ts_length st)).
    assert (Hll : concat (fst ll) = seq k (i - k) /\ snd ll = sz i /\
      exists A l, fst ll = A ++ [l] /\ (forall x, In x l -> sz x = sz i) /\ (forall x, In x (concat A) -> sz i < sz x)).
    { destruct P4 as [A [l [E [Q1 Q2]]]]. unfold ll. destruct (Nat.ltb_spec (length (set_at i)) (ts_length st)) as [H|H]; cbn [fst snd].
      - split; [rewrite concat_app; cbn; rewrite !app_nil_r; exact P3|]. split; [reflexivity|]. exists (ts_levels st), []. split; [reflexivity|]. split; [intros x []|].
        intros x Hx. rewrite E, concat_app in Hx. cbn in Hx. rewrite app_nil_r in Hx. apply in_app_or in Hx. change (length (set_at i)) with (sz i) in H. destruct Hx as [Hx|Hx]; [specialize (Q2 x Hx); lia|rewrite (Q1 x Hx); exact H].
      - assert (Es : ts_length st = sz i) by (specialize (P5 i (le_n _) Hi); unfold TreeProofs.sz in *; lia).
        split; [exact P3|]. split; [exact Es|]. exists A, l. split; [exact E|]. rewrite <- Es. split; assumption. }
    destruct ll as [levels len]. cbn [fst snd] in Hll. destruct Hll as [L1 [-> [A [l [L3 [L4 L5]]]]]].
    set (test := fun p => contains_set (set_at p) (set_at i)).
    assert (HA : removelast levels = A) by (rewrite L3, removelast_last; reflexivity). rewrite HA.
    assert (Hcc : concat A ++ l = seq k (i - k)) by (rewrite <- L1, L3, concat_app; cbn; rewrite app_nil_r; reflexivity).
    assert (Hin : forall p, In p (flat_map (filter test) (rev A)) <-> k <= p < i /\ included (set_at i) (set_at p)).
    { intros p. rewrite in_filter_levels. unfold test. rewrite contains_set_iff. split.
      - intros [H1 H2]. split; [|exact H2]. assert (Hs : In p (seq k (i - k))) by (rewrite <- Hcc; apply in_or_app; left; exact H1). apply in_seq in Hs. lia.
      - intros [H1 H2]. split; [|exact H2]. assert (Hs : In p (concat A ++ l)) by (rewrite Hcc; apply in_seq; lia). apply in_app_or in Hs. destruct Hs as [Hs|Hs]; [exact Hs|]. exfalso.
        pose proof (L4 p Hs). pose proof (incl_size i p Hi ltac:(lia) ltac:(lia) H2). lia. }
    set (parents := match flat_map (filter test) (rev A) with [] => filter test (ts_tops st) | _ => flat_map (filter test) (rev A) end).
    assert (Hpar : forall p, In p parents <-> r_link k i p).
    { intros p. unfold parents. destruct (flat_map (filter test) (rev A)) as [|p0 ps] eqn:Ef.
      - rewrite filter_In, P2. unfold test. rewrite contains_set_iff. unfold r_link.
        assert (Hno : forall q, k <= q < i -> ~ included (set_at i) (set_at q)) by (intros q Hq Hinc; apply (proj2 (Hin q)); split; assumption).
        split.
        + intros [[H1 _] H2]. split; [exact Hki|]. split; [exact H1|]. split; [exact H2|]. right. exact Hno.
        + intros [_ [H1 [H2 _]]]. split; [|exact H2]. split; [exact H1|]. left. destruct (le_lt_dec k p) as [K|K]; [|exact K]. exfalso. exact (Hno p (conj K H1) H2).
      - rewrite Hin. unfold r_link. split; [intros [H1 H2]; split; [exact Hki|]; split; [lia|]; split; [exact H2|]; left; lia|].
        intros [_ [H1 [H2 H3]]]. split; [|exact H2]. split; [|exact H1]. destruct H3 as [H3|H3]; [exact H3|]. exfalso.
        destruct (proj1 (Hin p0) (or_introl eq_refl)) as [K1 K2]. exact (H3 p0 K1 K2). }
    assert (Hpn : NoDup parents).
    { unfold parents. destruct (flat_map (filter test) (rev A)) as [|p0 ps] eqn:Ef; [apply NoDup_filter; exact P2'|]. rewrite <- Ef.
      apply filter_levels_nodup. apply (NoDup_app_l _ l). rewrite Hcc. apply seq_NoDup. }
    constructor; cbn [ts_links ts_tops ts_levels ts_length].
    - intros c p. rewrite in_app_iff, P1, in_map_iff. split.
      + intros [[H1 H2]|[p' [E Hp]]]; [split; [lia|exact H2]|]. injection E as <- <-. split; [lia|]. apply Hpar. exact Hp.
      + intros [H1 H2]. destruct (Nat.eq_dec c i) as [->|Hne]; [right; exists p; split; [reflexivity|apply Hpar; exact H2]|left; split; [lia|exact H2]].
    - apply NoDup_app_i; [exact P1'| |].
      + clear -Hpn. induction Hpn as [|p ps Hp _ IH]; cbn; constructor; [|exact IH]. intros K. apply in_map_iff in K. destruct K as [q [E Hq]]. injection E as ->. contradiction.
      + intros [c p] H1 H2. apply P1 in H1. apply in_map_iff in H2. destruct H2 as [q [E _]]. injection E as <- _. lia.
    - intros t. assert (Htop : r_top k i <-> parents = []).
      { split.
        - intros [H|H]; [lia|]. destruct parents as [|p0 ps] eqn:Ep; [reflexivity|]. exfalso. destruct (proj1 (Hpar p0) (or_introl eq_refl)) as [_ [K1 [K2 _]]]. exact (H p0 K1 K2).
        - intros E. right. intros q Hq Hinc. destruct (le_lt_dec k q) as [K|K].
          + assert (In q parents); [|rewrite E in *; contradiction]. apply Hpar. split; [exact Hki|]. split; [exact Hq|]. split; [exact Hinc|left; exact K].
          + assert (In q parents); [|rewrite E in *; contradiction]. apply Hpar. split; [exact Hki|]. split; [exact Hq|]. split; [exact Hinc|]. right. intros q' Hq' Hinc'.
            assert (In q' parents); [|rewrite E in *; contradiction]. apply Hpar. split; [exact Hki|]. split; [lia|]. split; [exact Hinc'|left; lia]. }
      destruct parents as [|p0 ps] eqn:Ep.
      + rewrite in_app_iff, P2. cbn. split.
        * intros [[H1 H2]|[<-|[]]]; [split; [lia|exact H2]|split; [lia|apply Htop; reflexivity]].
        * intros [H1 H2]. destruct (Nat.eq_dec t i) as [->|Hne]; [right; left; reflexivity|left; split; [lia|exact H2]].
      + rewrite P2. split; [intros [H1 H2]; split; [lia|exact H2]|]. intros [H1 H2]. split; [|exact H2]. destruct (Nat.eq_dec t i) as [->|Hne]; [|lia]. apply Htop in H2. discriminate.
    - destruct parents as [|p0 ps]; [|exact P2']. apply NoDup_app_i; [exact P2'|repeat constructor; intros []|]. intros x H1 [<-|[]]. apply P2 in H1. lia.
    - rewrite push_last_concat by (rewrite L3; destruct A; discriminate). rewrite L1. replace (S i - k) with (i - k + 1) by lia. rewrite seq_app. cbn. do 2 f_equal. lia.
    - rewrite L3, push_last_snoc. exists A, (l ++ [i]). split; [reflexivity|]. split; [|exact L5]. intros x Hx. apply in_app_or in Hx. destruct Hx as [Hx|[<-|[]]]; [apply L4; exact Hx|reflexivity].
    - intros j H1 H2. apply (sz_mono nodes Hsorted); lia.
  Qed.

  Lemma r_fold_inv k : forall m i st, i + m <= n -> k <= i -> rinv k i st -> rinv k (i + m) (fold_left (r_tree_step nodes) (seq i m) st).
  Proof.
    induction m as [|m IH]; intros i st Hm Hi Hinv; [rewrite Nat.add_0_r; exact Hinv|].
    cbn [seq fold_left]. replace (i + S m) with (S i + m) by lia. apply IH; [lia|lia|]. apply r_step_inv; [lia|lia|exact Hinv].
  Qed.

  Definition largest (i : nat) : Prop := forall j, j < n -> sz j <= sz i.

  (** The result on the index level. *)
  Lemma r_links_spec :
    let links := fst (r_build_links nodes) in let tops := snd (r_build_links nodes) in
    NoDup links /\ NoDup tops /\
    (forall c p, In (c, p) links <-> p < c < n /\ included (set_at c) (set_at p) /\ (~ largest p \/ forall q, q < n -> q <> c -> included (set_at c) (set_at q) -> largest q)) /\
    (forall t, In t tops <-> t < n /\ forall q, q < n -> q <> t -> ~ included (set_at t) (set_at q)).
  Proof.
    cbv zeta. unfold r_build_links. destruct nodes as [|x r] eqn:En.
    { cbn. split; [constructor|]. split; [constructor|]. split; [intros c p; split; [intros []|lia]|intros t; split; [intros []|lia]]. }
    rewrite <- En in *.
    destruct (count_leading_spec (length (rn_set x)) nodes) as [K1 [K2 K3]]. set (k := count_leading (length (rn_set x)) nodes) in *.
    assert (Hk : forall j, j < k -> sz j = length (rn_set x)).
    { intros j Hj. unfold TreeProofs.sz, TreeModel.set_at. destruct (nth_error nodes j) as [y|] eqn:E; [|apply nth_error_None in E; lia]. apply (K2 j y Hj E). }
    assert (H0 : sz 0 = length (rn_set x)) by (unfold TreeProofs.sz, TreeModel.set_at; rewrite En; reflexivity).
    assert (Hk0 : 0 < k). { unfold k. rewrite En. cbn. rewrite Nat.eqb_refl. lia. }
    assert (Hsk : forall j, k <= j -> j < n -> sz j < sz 0).
    { intros j H1 H2. pose proof (sz_mono nodes Hsorted k j H1 H2) as M1. pose proof (sz_mono nodes Hsorted 0 k ltac:(lia) ltac:(lia)) as M2.
      assert (sz k <> sz 0); [|lia]. rewrite H0. unfold TreeProofs.sz, TreeModel.set_at. destruct (nth_error nodes k) as [y|] eqn:Ey; [|apply nth_error_None in Ey; lia]. apply (K3 y eq_refl). }
    assert (Hlarge : forall j, j < n -> (largest j <-> j < k)).
    { intros j Hj. split.
      - intros H. destruct (le_lt_dec k j) as [K|K]; [|exact K]. specialize (H 0 ltac:(lia)). specialize (Hsk j K Hj). lia.
      - intros H j' Hj'. rewrite (Hk j H), <- H0. apply (sz_mono nodes Hsorted); lia. }
    assert (Hself : forall t, t < k -> forall q, q < n -> q <> t -> ~ included (set_at t) (set_at q)).
    { intros t Ht q Hq Hne Hinc. pose proof (incl_size t q ltac:(lia) Hq ltac:(lia) Hinc). pose proof (sz_mono nodes Hsorted 0 q ltac:(lia) Hq). rewrite (Hk t Ht) in H. lia. }
    destruct (Nat.eqb_spec k n) as [E|E]; cbn [fst snd].
    - split; [constructor|]. split; [apply seq_NoDup|]. split.
      + intros c p. split; [intros []|]. intros [H1 [H2 _]]. exfalso. apply (Hself c ltac:(lia) p ltac:(lia) ltac:(lia) H2).
      + intros t. rewrite in_seq. split; [intros H; split; [lia|apply Hself; lia]|intros [H _]; lia].
    - assert (Hinit : rinv k k (mkTS [] (seq 0 k) [[]] (length (set_at k)))).
      { constructor; cbn [ts_links ts_tops ts_levels ts_length].
        - intros c p. split; [intros []|]. intros [H1 [H2 _]]. lia.
        - constructor.
        - intros t. rewrite in_seq. split; [intros H; split; [lia|left; lia]|intros [H _]; lia].
        - apply seq_NoDup.
        - rewrite Nat.sub_diag. reflexivity.
        - exists [], []. split; [reflexivity|]. split; intros y [].
        - intros j H1 H2. apply (sz_mono nodes Hsorted); assumption. }
      pose proof (r_fold_inv k (n - k) k _ ltac:(lia) ltac:(lia) Hinit) as Hinv.
      replace (k + (n - k)) with n in Hinv by lia. unfold range.
      set (st := fold_left (r_tree_step nodes) (seq k (n - k)) (mkTS [] (seq 0 k) [[]] (length (set_at k)))) in *.
      destruct Hinv as [P1 P1' P2 P2' _ _ _]. split; [exact P1'|]. split; [exact P2'|]. split.
      + intros c p. rewrite P1. unfold r_link. split.
        * intros [H1 [H2 [H3 [H4 H5]]]]. split; [lia|]. split; [exact H4|]. destruct H5 as [H5|H5]; [left; rewrite Hlarge by lia; lia|].
          right. intros q Hq Hne Hinc. apply Hlarge; [exact Hq|]. destruct (le_lt_dec k q) as [K|K]; [|exact K]. exfalso. apply (H5 q); [|exact Hinc]. split; [exact K|]. apply incl_before; try assumption. intros ->; contradiction.
        * intros [H1 [H2 H3]]. split; [lia|]. assert (Hc : k <= c). { destruct (le_lt_dec k c) as [K|K]; [exact K|]. exfalso. apply (Hself c K p ltac:(lia) ltac:(lia) H2). }
          split; [exact Hc|]. split; [lia|]. split; [exact H2|]. destruct H3 as [H3|H3]; [left; rewrite Hlarge in H3 by lia; lia|]. right. intros q Hq Hinc. specialize (H3 q ltac:(lia) ltac:(lia) Hinc). apply Hlarge in H3; lia.
      + intros t. rewrite P2. unfold r_top. split.
        * intros [H1 [H2|H2]]; (split; [exact H1|]); [apply Hself; exact H2|]. intros q Hq Hne Hinc. apply (H2 q); [|exact Hinc]. apply incl_before; try assumption. intros ->; contradiction.
        * intros [H1 H2]. split; [exact H1|]. right. intros q Hq. apply H2; lia.
  Qed.
End Build.

Lemma nodes_child {D} : forall (r a c : anode D), In a (nodes_of r) -> In c (an_children a) -> In c (nodes_of r).
Proof.
  fix IH 1. intros [d s cs] a c Ha Hc. cbn [nodes_of] in *. destruct Ha as [<-|Ha].
  - right. cbn in Hc. apply in_flat_map. exists c. split; [exact Hc|]. destruct c; left; reflexivity.
  - right. clear d s. induction cs as [|x cs IHc]; [destruct Ha|]. cbn in *. apply in_app_or in Ha. apply in_or_app. destruct Ha as [Ha|Ha]; [left; exact (IH x a c Ha Hc)|right; apply IHc; exact Ha].
Qed.

Section Final.
  Context {D : Type}.
  Variable input : list (raw_node D).
  Hypothesis Hnd : Forall (fun r => NoDup (rn_set r)) input.
  Hypothesis Hdist : forall i j x y, nth_error input i = Some x -> nth_error input j = Some y ->
     included (rn_set x) (rn_set y) -> included (rn_set y) (rn_set x) -> i = j.
  Let nodes := sort_desc input.
  Let links := fst (r_build_links nodes).
  Let tops := snd (r_build_links nodes).
  Notation n := (length nodes).
  Notation set_at := (set_at nodes).

  Lemma nd_at i : NoDup (set_at i).
  Proof.
    unfold TreeModel.set_at. destruct (nth_error nodes i) as [y|] eqn:E; [|constructor]. rewrite Forall_forall in Hnd. apply Hnd. apply (Permutation_in _ (sort_desc_perm input)). exact (nth_error_In _ _ E).
  Qed.
  Lemma dist_at i j : i < n -> j < n -> included (set_at i) (set_at j) -> included (set_at j) (set_at i) -> i = j.
  Proof.
    intros Hi Hj H1 H2. unfold TreeModel.set_at in *. destruct (nth_error nodes i) as [x|] eqn:Ei; [|apply nth_error_None in Ei; lia]. destruct (nth_error nodes j) as [y|] eqn:Ej; [|apply nth_error_None in Ej; lia].
    exact (distinct_perm input nodes (Permutation_sym (sort_desc_perm input)) Hdist i j x y Ei Ej H1 H2).
  Qed.
  Lemma r_facts : NoDup links /\ NoDup tops /\
    (forall c p, In (c, p) links <-> p < c < n /\ included (set_at c) (set_at p) /\ (~ largest nodes p \/ forall q, q < n -> q <> c -> included (set_at c) (set_at q) -> largest nodes q)) /\
    (forall t, In t tops <-> t < n /\ forall q, q < n -> q <> t -> ~ included (set_at t) (set_at q)).
  Proof. exact (r_links_spec nodes (sort_desc_sorted input) nd_at dist_at). Qed.
  Lemma r_links_lt c p : In (c, p) links -> p < c < n.
  Proof. intros H. apply r_facts in H. apply H. Qed.
  Lemma r_forest_eq : r_build_tree input = forest nodes links tops.
  Proof. unfold r_build_tree, forest, grow, links, tops, nodes. destruct (r_build_links (sort_desc input)) as [l t]. reflexivity. Qed.

  Lemma at_input i x : nth_error nodes i = Some x -> In x input /\ i < n /\ set_at i = rn_set x.
  Proof.
    intros E. split; [apply (Permutation_in _ (sort_desc_perm input)); exact (nth_error_In _ _ E)|]. split; [apply nth_error_Some; congruence|]. unfold TreeModel.set_at. rewrite E. reflexivity.
  Qed.
  Lemma input_at r : In r input -> exists q, nth_error nodes q = Some r.
  Proof. intros H. apply (Permutation_in _ (Permutation_sym (sort_desc_perm input))) in H. apply In_nth_error in H. exact H. Qed.

  Lemma below_or_top : forall x, x < n -> exists t, In t tops /\ anc links t x.
  Proof.
    induction x as [x IH] using lt_wf_ind. intros Hx. destruct r_facts as [_ [_ [FL FT]]].
    assert (C : (exists q, q < n /\ q <> x /\ included (set_at x) (set_at q)) \/ forall q, q < n -> q <> x -> ~ included (set_at x) (set_at q)).
    { assert (G : forall m, (exists q, q < m /\ q <> x /\ included (set_at x) (set_at q)) \/ forall q, q < m -> q <> x -> ~ included (set_at x) (set_at q)).
      { induction m as [|m [[q [H1 H2]]|H]]; [right; lia|left; exists q; split; [lia|exact H2]|].
        destruct (Nat.eq_dec m x) as [->|Hm]; [right; intros q Hq Hne; apply H; lia|].
        destruct (contains_set (set_at m) (set_at x)) eqn:E; [left; exists m; split; [lia|]; split; [exact Hm|apply contains_set_iff; exact E]|].
        right. intros q Hq Hne. destruct (Nat.eq_dec q m) as [->|Hqm]; [|apply H; lia]. intros K. apply contains_set_iff in K. congruence. }
      apply G. }
    destruct C as [[q [Hq [Hne Hinc]]]|C]; [|exists x; split; [apply FT; split; assumption|constructor]].
    assert (P : exists p, In (x, p) links).
    { assert (Dq : (exists q, q < n /\ q <> x /\ included (set_at x) (set_at q) /\ ~ largest nodes q) \/ forall q, q < n -> q <> x -> included (set_at x) (set_at q) -> largest nodes q).
      { assert (Dl : forall q, largest nodes q \/ ~ largest nodes q).
        { intros q'. unfold largest. destruct (Forall_Exists_dec (fun j => sz nodes j <= sz nodes q') (fun j => le_dec _ _) (seq 0 n)) as [F|F].
          - left. rewrite Forall_forall in F. intros j Hj. apply F. apply in_seq. lia.
          - right. apply Exists_exists in F. destruct F as [j [Hj F]]. apply in_seq in Hj. intros K. apply F. apply K. lia. }
        assert (G : forall m, (exists q, q < m /\ q <> x /\ included (set_at x) (set_at q) /\ ~ largest nodes q) \/ forall q, q < m -> q <> x -> included (set_at x) (set_at q) -> largest nodes q).
        { induction m as [|m [[q' [H1 H2]]|H]]; [right; lia|left; exists q'; split; [lia|exact H2]|].
          destruct (Nat.eq_dec m x) as [->|Hm]; [right; intros q' Hq' Hne'; apply H; lia|].
          destruct (contains_set (set_at m) (set_at x)) eqn:E.
          - destruct (Dl m) as [L|L].
            + right. intros q' Hq' Hne'. destruct (Nat.eq_dec q' m) as [->|Hqm]; [intros _; exact L|apply H; lia].
            + left. exists m. split; [lia|]. split; [exact Hm|]. split; [apply contains_set_iff; exact E|exact L].
          - right. intros q' Hq' Hne'. destruct (Nat.eq_dec q' m) as [->|Hqm]; [intros K; apply contains_set_iff in K; congruence|apply H; lia]. }
        apply G. }
      destruct Dq as [[q' [H1 [H2 [H3 H4]]]]|Dq].
      - exists q'. apply FL. split; [split; [|exact Hx]; apply (incl_before nodes (sort_desc_sorted input) nd_at dist_at); try assumption; lia|]. split; [exact H3|left; exact H4].
      - exists q. apply FL. split; [split; [|exact Hx]; apply (incl_before nodes (sort_desc_sorted input) nd_at dist_at); try assumption; lia|]. split; [exact Hinc|right; exact Dq]. }
    destruct P as [p Hp]. pose proof (r_links_lt _ _ Hp). destruct (IH p) as [t [Ht Ha]]; [lia|lia|]. exists t. split; [exact Ht|]. econstructor; eassumption.
  Qed.

  Lemma node_iff b : In b (flat_map nodes_of (r_build_tree input)) <-> exists j, j < n /\ grow nodes links n j = [b].
  Proof.
    rewrite r_forest_eq. unfold forest. rewrite flat_map_flat_map. split.
    - intros H. apply in_flat_map in H. destruct H as [t [Ht Hb]]. assert (Hlt : t < n) by (apply r_facts in Ht; apply Ht).
      destruct (in_grow nodes links r_links_lt n t ltac:(lia) Hlt b Hb) as [j [_ H']]. exists j. exact H'.
    - intros [j [Hj Eb]]. destruct (below_or_top j Hj) as [t [Ht Ha]]. assert (Hlt : t < n) by (apply r_facts in Ht; apply Ht).
      apply in_flat_map. exists t. split; [exact Ht|]. revert b Eb.
      induction Ha as [|p c Ha IH Hl]; intros b Eb.
      + rewrite Eb. cbn. rewrite app_nil_r. destruct b; left; reflexivity.
      + pose proof (r_links_lt _ _ Hl) as Hl2. destruct (grow_one nodes links r_links_lt p ltac:(lia)) as [a [Ea [_ E2]]]. specialize (IH ltac:(lia) a Ea).
        apply in_flat_map in IH. destruct IH as [r [Hr Hin]]. apply in_flat_map. exists r. split; [exact Hr|]. apply (nodes_child r a b Hin). rewrite E2. apply in_flat_map. exists c. split; [apply in_kids; exact Hl|]. rewrite Eb. left; reflexivity.
  Qed.

  Lemma grow_src i a : i < n -> grow nodes links n i = [a] -> exists x, nth_error nodes i = Some x /\ source a = (rn_data x, rn_set x).
  Proof. intros Hi E. destruct (reify_some nodes links n i ltac:(lia) Hi) as [x [Ex [f [Ef Er]]]]. exists x. split; [exact Ex|]. unfold grow in E. rewrite Er in E. injection E as <-. reflexivity. Qed.
  Lemma grow_set i a : i < n -> grow nodes links n i = [a] -> an_set a = set_at i.
  Proof. intros Hi E. destruct (grow_one nodes links r_links_lt i Hi) as [a' [Ea [E1 _]]]. congruence. Qed.

  Lemma r_sources_proof d s : (exists a, In a (flat_map nodes_of (r_build_tree input)) /\ an_data a = d /\ an_set a = s) <-> exists r, In r input /\ rn_data r = d /\ rn_set r = s.
  Proof.
    split.
    - intros [a [Ha [<- <-]]]. apply node_iff in Ha. destruct Ha as [j [Hj Ea]]. destruct (grow_src j a Hj Ea) as [x [Ex Es]]. injection Es as -> ->. exists x. split; [apply (at_input j x Ex)|split; reflexivity].
    - intros [r [Hr [<- <-]]]. destruct (input_at r Hr) as [q Hq]. destruct (at_input q r Hq) as [_ [Hlt _]]. destruct (grow_one nodes links r_links_lt q Hlt) as [a [Ea _]]. exists a.
      split; [apply node_iff; exists q; split; assumption|]. destruct (grow_src q a Hlt Ea) as [x [Ex Es]]. assert (x = r) by congruence. subst x. injection Es as -> ->. split; reflexivity.
  Qed.

  Lemma r_shared_proof a b : In a (flat_map nodes_of (r_build_tree input)) -> In b (flat_map nodes_of (r_build_tree input)) -> included (an_set a) (an_set b) -> included (an_set b) (an_set a) -> a = b.
  Proof.
    intros Ha Hb H1 H2. apply node_iff in Ha, Hb. destruct Ha as [i [Hi Ea]], Hb as [j [Hj Eb]]. rewrite (grow_set i a Hi Ea), (grow_set j b Hj Eb) in *.
    assert (i = j) by (apply dist_at; assumption). subst j. congruence.
  Qed.

  Lemma largest_iff i a : i < n -> grow nodes links n i = [a] -> (largest nodes i <-> forall r, In r input -> length (rn_set r) <= length (an_set a)).
  Proof.
    intros Hi Ea. rewrite (grow_set i a Hi Ea). unfold largest, TreeProofs.sz. split.
    - intros H r Hr. destruct (input_at r Hr) as [q Hq]. destruct (at_input q r Hq) as [_ [Hlt <-]]. apply H. exact Hlt.
    - intros H j Hj. destruct (nth_error nodes j) as [x|] eqn:E; [|apply nth_error_None in E; lia]. destruct (at_input j x E) as [Hx [_ ->]]. apply H. exact Hx.
  Qed.
  Lemma largest_at i x : nth_error nodes i = Some x -> (largest nodes i <-> forall r, In r input -> length (rn_set r) <= length (rn_set x)).
  Proof.
    intros E. destruct (at_input i x E) as [_ [Hi Es]]. destruct (grow_one nodes links r_links_lt i Hi) as [a [Ea [E1 _]]]. rewrite (largest_iff i a Hi Ea). rewrite E1, Es. reflexivity.
  Qed.

  Lemma r_children_proof a b : In a (flat_map nodes_of (r_build_tree input)) -> In b (flat_map nodes_of (r_build_tree input)) ->
    (child_of b a <->
     strictly_in (an_set b) (an_set a) /\
     ((exists r, In r input /\ length (an_set a) < length (rn_set r)) \/
      forall r, In r input -> strictly_in (an_set b) (rn_set r) -> forall r', In r' input -> length (rn_set r') <= length (rn_set r))).
  Proof.
    intros Ha Hb. apply node_iff in Ha, Hb. destruct Ha as [p [Hp Ea]], Hb as [c [Hc Eb]].
    destruct (grow_one nodes links r_links_lt p Hp) as [a' [Ea' [Sa Ca]]]. assert (a' = a) by congruence. subst a'.
    destruct (grow_one nodes links r_links_lt c Hc) as [b' [Eb' [Sb _]]]. assert (b' = b) by congruence. subst b'.
    destruct r_facts as [_ [_ [FL _]]].
    assert (Hch : child_of b a <-> In (c, p) links).
    { unfold child_of. rewrite Ca, in_flat_map. split.
      - intros [c' [Hk Hin]]. apply in_kids in Hk. pose proof (r_links_lt _ _ Hk). destruct (grow_one nodes links r_links_lt c' ltac:(lia)) as [b' [E' [S' _]]]. rewrite E' in Hin. destruct Hin as [->|[]].
        replace c with c'; [exact Hk|]. apply dist_at; try lia; rewrite <- S', Sb; intros z Hz; exact Hz.
      - intros Hl. exists c. split; [apply in_kids; exact Hl|]. rewrite Eb. left; reflexivity. }
    assert (Hsi : forall i j, i < n -> j < n -> (strictly_in (set_at i) (set_at j) <-> i <> j /\ included (set_at i) (set_at j))).
    { intros i j Hi Hj. unfold strictly_in. split.
      - intros [H1 H2]. split; [intros ->; apply H2; intros z Hz; exact Hz|exact H1].
      - intros [H1 H2]. split; [exact H2|]. intros K. apply H1. apply dist_at; assumption. }
    rewrite Hch, FL, Sa, Sb, (Hsi c p Hc Hp). split.
    - intros [H1 [H2 H3]]. split; [split; [lia|exact H2]|]. destruct H3 as [H3|H3].
      + left. rewrite (largest_iff p a Hp Ea) in H3.
        destruct (Exists_dec (fun r => length (an_set a) < length (rn_set r)) input (fun r => lt_dec _ _)) as [F|F]; [apply Exists_exists in F; rewrite Sa in F; exact F|].
        exfalso. apply H3. intros r Hr. destruct (le_lt_dec (length (rn_set r)) (length (an_set a))) as [K|K]; [exact K|]. exfalso. apply F. apply Exists_exists. exists r. split; assumption.
      + right. intros r Hr Hs. destruct (input_at r Hr) as [q Hq]. destruct (at_input q r Hq) as [_ [Hlt Eq]]. rewrite <- Eq, (Hsi c q Hc Hlt) in Hs. apply (largest_at q r Hq). apply H3; [exact Hlt|lia|apply Hs].
    - intros [[H1 H2] H3]. split; [split; [|exact Hc]; apply (incl_before nodes (sort_desc_sorted input) nd_at dist_at); assumption|]. split; [exact H2|]. destruct H3 as [[r [Hr H3]]|H3].
      + left. rewrite (largest_iff p a Hp Ea). intros K. specialize (K r Hr). rewrite Sa in K. lia.
      + right. intros q Hq Hne Hinc. destruct (nth_error nodes q) as [x|] eqn:E; [|apply nth_error_None in E; lia]. destruct (at_input q x E) as [Hx [_ Eq]]. apply (largest_at q x E). apply (H3 x Hx). rewrite <- Eq. apply Hsi; [exact Hc|exact Hq|]. split; [lia|exact Hinc].
  Qed.

  Lemma r_children_once_proof a : In a (flat_map nodes_of (r_build_tree input)) -> NoDup (an_children a).
  Proof.
    intros Ha. apply node_iff in Ha. destruct Ha as [p [Hp Ea]]. destruct (grow_one nodes links r_links_lt p Hp) as [a' [Ea' [Sa Ca]]]. assert (a' = a) by congruence. subst a'. rewrite Ca.
    assert (Hkn : NoDup (kids links p)).
    { destruct r_facts as [Hl _]. unfold kids. clear -Hl. induction links as [|[c q] l IH]; [constructor|]. inversion Hl as [|? ? H1 H2]; subst. cbn [filter snd].
      destruct (Nat.eqb_spec q p) as [->|Hne]; [|apply IH; exact H2]. cbn [map fst]. constructor; [|apply IH; exact H2]. intros K. apply in_map_iff in K. destruct K as [[c' q'] [E K]]. cbn in E. subst c'. apply filter_In in K. destruct K as [K E]. cbn in E. apply Nat.eqb_eq in E. subst q'. contradiction. }
    assert (Hlt : forall k, In k (kids links p) -> k < n) by (intros k Hk; apply in_kids in Hk; apply r_links_lt in Hk; lia).
    apply NoDup_flat_map; [exact Hkn| |].
    - intros k Hk. destruct (grow_one nodes links r_links_lt k (Hlt k Hk)) as [b [-> _]]. repeat constructor. intros [].
    - intros i j b Hi Hj H1 H2. destruct (grow_one nodes links r_links_lt i (Hlt i Hi)) as [x [Ex [Sx _]]]. destruct (grow_one nodes links r_links_lt j (Hlt j Hj)) as [y [Ey [Sy _]]].
      rewrite Ex in H1. rewrite Ey in H2. destruct H1 as [->|[]]. destruct H2 as [->|[]]. apply dist_at; [apply Hlt; exact Hi|apply Hlt; exact Hj| |]; rewrite <- Sx, <- Sy; intros z Hz; exact Hz.
  Qed.

  Lemma r_roots_proof a : In a (flat_map nodes_of (r_build_tree input)) ->
    (In a (r_build_tree input) <-> forall r, In r input -> ~ strictly_in (an_set a) (rn_set r)).
  Proof.
    intros Ha. apply node_iff in Ha. destruct Ha as [t [Ht Ea]]. pose proof (grow_set t a Ht Ea) as Sa. destruct r_facts as [_ [_ [_ FT]]].
    assert (Hin : In a (r_build_tree input) <-> In t tops).
    { rewrite r_forest_eq. unfold forest. rewrite in_flat_map. split.
      - intros [t' [Ht' Hin]]. assert (Hlt : t' < n) by (apply FT in Ht'; apply Ht'). destruct (grow_one nodes links r_links_lt t' Hlt) as [a' [E' [S' _]]]. rewrite E' in Hin. destruct Hin as [->|[]].
        replace t with t'; [exact Ht'|]. apply dist_at; try lia; rewrite <- S', Sa; intros z Hz; exact Hz.
      - intros H. exists t. split; [exact H|]. rewrite Ea. left; reflexivity. }
    rewrite Hin, FT, Sa. split.
    - intros [_ H] r Hr [H1 H2]. destruct (input_at r Hr) as [q Hq]. destruct (at_input q r Hq) as [_ [Hlt Eq]]. rewrite <- Eq in *. apply (H q Hlt); [intros ->; contradiction|exact H1].
    - intros H. split; [exact Ht|]. intros q Hq Hne Hinc. destruct (nth_error nodes q) as [x|] eqn:E; [|apply nth_error_None in E; lia]. destruct (at_input q x E) as [Hx [_ Eq]]. apply (H x Hx). rewrite <- Eq. split; [exact Hinc|].
      intros K. apply Hne. apply dist_at; assumption.
  Qed.
End Final.

(** * from the repeat sets *)
Lemma elems_ok trace : forall m s, s + m <= length trace -> mapM (elem_at trace) (seq s m) = Ok (piece trace s m).
Proof.
  induction m as [|m IH]; intros s H; [reflexivity|]. cbn [seq mapM]. destruct (elem_at_ok trace s ltac:(lia)) as [x [Ex ->]]. cbn [bind]. rewrite (IH (S s)) by lia. cbn [bind]. f_equal.
  unfold piece. assert (E : skipn s trace = x :: skipn (S s) trace); [|rewrite E; reflexivity].
  clear -Ex. revert trace Ex. induction s as [|s IHs]; intros [|y t] Ex; cbn in *; try discriminate; [congruence|apply IHs; exact Ex].
Qed.

Lemma r_discovered_proof D (make : repeat_set -> D) sip ord log patterns rsets : any_order ord -> r_build_repeat_sets sip ord log patterns = Ok rsets ->
  exists F, r_tree_from_repeats make log rsets = Ok F /\
    (forall r, In r rsets -> exists a, In a (flat_map nodes_of F) /\ an_data a = make r /\ same_set (an_set a) (classes log r)) /\
    (forall a, In a (flat_map nodes_of F) -> exists r, In r rsets /\ an_data a = make r /\ same_set (an_set a) (classes log r)) /\
    (forall a b, In a (flat_map nodes_of F) -> In b (flat_map nodes_of F) -> same_set (an_set a) (an_set b) -> a = b) /\
    (forall a, In a (flat_map nodes_of F) -> NoDup (an_children a)) /\
    (forall a b, In a (flat_map nodes_of F) -> child_of b a -> strictly_in (an_set b) (an_set a)) /\
    (forall a, In a (flat_map nodes_of F) -> (In a F <-> forall r, In r rsets -> ~ strictly_in (an_set a) (classes log r))).
Proof.
  intros Ho E. pose proof (build_cases sip ord Ho log patterns) as Hb. rewrite E in Hb. destruct Hb as [[Hw _] [_ _]].
  destruct (sets_found_proof sip ord Ho log patterns rsets E) as [_ [l0 [HP [Hincl [Hd _]]]]].
  set (raw := fun r => mkRaw (make r) (nodup N.eq_dec (classes log r))).
  assert (Hev : forall r, In r rsets -> r_events_set log r = Ok (nodup N.eq_dec (classes log r))).
  { intros r Hr. apply (Permutation_in _ HP) in Hr. apply in_map_iff in Hr. destruct Hr as [x [<- Hx]]. apply Hincl, in_all_patterns in Hx. destruct Hx as [k [subs [trace [s [H1 [H2 ->]]]]]]. apply nth_combine in H1. destruct H1 as [Hp Hl].
    pose proof (Hw k trace subs s Hl Hp H2) as Hr. unfold r_events_set, RActProofs2.entry. cbn [fst rs_trace_index rs_first_pos rs_length]. rewrite Nat.add_0_l. unfold SufModel.unwrap. rewrite Hl. cbn [bind].
    unfold range. replace (sa_first_pos s + sa_length s - sa_first_pos s) with (sa_length s) by lia. rewrite elems_ok by exact Hr. cbn [bind]. unfold classes. cbn [rs_trace_index rs_first_pos rs_length]. rewrite (nth_error_nth _ _ _ Hl). reflexivity. }
  assert (Em : mapM (fun r => bind (r_events_set log r) (fun events => Ok (mkRaw (make r) events))) rsets = Ok (map raw rsets)).
  { apply mapM_Forall2. clear -Hev. induction rsets as [|r rs IH]; cbn; constructor; [rewrite (Hev r (or_introl eq_refl)); reflexivity|]. apply IH. intros r' Hr'. apply Hev. right; exact Hr'. }
  unfold r_tree_from_repeats. rewrite Em. cbn [bind]. exists (r_build_tree (map raw rsets)). split; [reflexivity|].
  assert (Hnd : Forall (fun r => NoDup (rn_set r)) (map raw rsets)). { apply Forall_forall. intros x Hx. apply in_map_iff in Hx. destruct Hx as [r [<- _]]. apply NoDup_nodup. }
  assert (Hdist : forall i j x y, nth_error (map raw rsets) i = Some x -> nth_error (map raw rsets) j = Some y -> included (rn_set x) (rn_set y) -> included (rn_set y) (rn_set x) -> i = j).
  { apply (distinct_perm (map (fun p => raw (fst p)) l0)); [rewrite <- map_map; apply Permutation_map; symmetry; exact HP|].
    intros i j x y Hx Hy H1 H2. rewrite nth_error_map in Hx, Hy. destruct (nth_error l0 i) as [[r t]|] eqn:Ei; [|discriminate]. destruct (nth_error l0 j) as [[r' t']|] eqn:Ej; [|discriminate]. cbn in Hx, Hy. injection Hx as <-. injection Hy as <-.
    destruct (Nat.eq_dec i j) as [->|Hne]; [reflexivity|]. exfalso. apply (Hd i j _ _ Hne Ei Ej). cbn [snd].
    assert (Et : forall r t, In (r, t) l0 -> classes log r = t).
    { intros r0 t0 Hin. apply Hincl, in_all_patterns in Hin. destruct Hin as [k [subs [trace [s [K1 [K2 K3]]]]]]. unfold RActProofs2.entry in K3. injection K3 as -> ->. apply nth_combine in K1. unfold classes. cbn [rs_trace_index rs_first_pos rs_length]. rewrite (nth_error_nth _ _ _ (proj2 K1)). reflexivity. }
    rewrite <- (Et r t (nth_error_In _ _ Ei)), <- (Et r' t' (nth_error_In _ _ Ej)). cbn in H1, H2. intros z. specialize (H1 z). specialize (H2 z). rewrite !nodup_In in H1, H2. split; assumption. }
  assert (Hstr : forall a r, strictly_in a (nodup N.eq_dec (classes log r)) <-> strictly_in a (classes log r)).
  { intros a r. unfold strictly_in, included. split; intros [H1 H2]; (split; [intros z Hz; specialize (H1 z Hz); apply nodup_In in H1; exact H1|]) || (split; [intros z Hz; apply nodup_In; apply H1; exact Hz|]); intros K; apply H2; intros z Hz; apply K; apply nodup_In in Hz || apply nodup_In; exact Hz. }
  split; [|split; [|split; [|split; [|split]]]].
  - intros r Hr. destruct (proj2 (r_sources_proof (map raw rsets) Hnd Hdist (make r) (nodup N.eq_dec (classes log r)))) as [a [Ha [H1 H2]]]; [exists (raw r); split; [apply in_map; exact Hr|split; reflexivity]|].
    exists a. split; [exact Ha|]. split; [exact H1|]. intros z. rewrite H2. apply nodup_In.
  - intros a Ha. destruct (proj1 (r_sources_proof (map raw rsets) Hnd Hdist (an_data a) (an_set a))) as [x [Hx [H1 H2]]]; [exists a; auto|]. apply in_map_iff in Hx. destruct Hx as [r [<- Hr]]. exists r. split; [exact Hr|]. split; [symmetry; exact H1|]. intros z. rewrite <- H2. apply nodup_In.
  - intros a b Ha Hb Hs. apply (r_shared_proof (map raw rsets) Hnd Hdist); [exact Ha|exact Hb| |]; intros z Hz; apply Hs; exact Hz.
  - intros a Ha. apply (r_children_once_proof (map raw rsets) Hnd Hdist a Ha).
  - intros a b Ha Hc. assert (Hbn : In b (flat_map nodes_of (r_build_tree (map raw rsets)))).
    { apply in_flat_map in Ha. destruct Ha as [t [Ht Ha]]. apply in_flat_map. exists t. split; [exact Ht|]. exact (nodes_child t a b Ha Hc). }
    apply (r_children_proof (map raw rsets) Hnd Hdist a b Ha Hbn) in Hc. apply Hc.
  - intros a Ha. rewrite (r_roots_proof (map raw rsets) Hnd Hdist a Ha). split.
    + intros H r Hr K. apply (H (raw r)); [apply in_map; exact Hr|]. apply Hstr. exact K.
    + intros H x Hx K. apply in_map_iff in Hx. destruct Hx as [r [<- Hr]]. apply (H r Hr). apply Hstr. exact K.
Qed.
