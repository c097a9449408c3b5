From Coq Require Import Sorting.Sorted Permutation.
From Verif Require SplitProofs.
From Verif Require Import Py PyFacts PatternModel PatternSpec PatternProofs RepeatProofs TreeModel TreeSpec.

Lemma contains_set_iff a b : contains_set a b = true <-> included b a.
Proof.
  unfold contains_set, included. rewrite forallb_forall. split.
  - intros H x Hx. specialize (H x Hx). apply existsb_N in H. exact H.
  - intros H x Hx. apply existsb_N. apply H. exact Hx.
Qed.

Section Sorted.
  Context {D : Type}.
  Notation raw_node := (raw_node D).

  Lemma insert_desc_perm (x : raw_node) l : Permutation (insert_desc x l) (x :: l).
  Proof.
    induction l as [|y l IH]; [reflexivity|]. cbn. destruct (_ <=? _); [reflexivity|]. rewrite IH. apply perm_swap.
  Qed.
  Lemma sort_desc_perm (l : list raw_node) : Permutation (sort_desc l) l.
  Proof. induction l as [|x l IH]; [reflexivity|]. cbn. rewrite insert_desc_perm. constructor. exact IH. Qed.

  Definition size (x : raw_node) := length (rn_set x).

  Lemma insert_desc_sorted (x : raw_node) l : StronglySorted (fun a b => size b <= size a) l -> StronglySorted (fun a b => size b <= size a) (insert_desc x l).
  Proof.
    induction 1 as [|y l Hs IH HF]; [repeat constructor|]. cbn. destruct (Nat.leb_spec (length (rn_set y)) (length (rn_set x))) as [H|H].
    - constructor; [constructor; assumption|]. constructor; [exact H|]. eapply Forall_impl; [|exact HF]. intros a Ha. cbn in *. unfold size in *. lia.
    - constructor; [exact IH|]. apply Forall_forall. intros z Hz. apply (Permutation_in z (insert_desc_perm x l)) in Hz. destruct Hz as [<-|Hz].
      + unfold size. lia.
      + rewrite Forall_forall in HF. apply HF. exact Hz.
  Qed.
  Lemma sort_desc_sorted (l : list raw_node) : StronglySorted (fun a b => size b <= size a) (sort_desc l).
  Proof. induction l; cbn; [constructor|]. apply insert_desc_sorted. assumption. Qed.
End Sorted.

Section Build.
  Context {D : Type}.
  Variable nodes : list (raw_node D).
  Hypothesis Hsorted : StronglySorted (fun a b => size b <= size a) nodes.

  Notation set_at := (set_at nodes).
  Definition sz i := length (set_at i).

  Lemma sz_mono i j : i <= j -> j < length nodes -> sz j <= sz i.
  Proof.
    intros Hij Hj. unfold sz, TreeModel.set_at.
    destruct (nth_error nodes i) as [x|] eqn:Ei; [|apply nth_error_None in Ei; lia].
    destruct (nth_error nodes j) as [y|] eqn:Ej; [|apply nth_error_None in Ej; lia].
    clear Hj. revert i j x y Hij Ei Ej. induction Hsorted as [|a l Hs IH HF]; intros i j x y Hij Ei Ej; [destruct i; discriminate|].
    destruct i as [|i], j as [|j]; cbn in Ei, Ej; try lia.
    - injection Ei as ->. injection Ej as ->. lia.
    - injection Ei as ->. rewrite Forall_forall in HF. apply (HF y). eapply nth_error_In; exact Ej.
    - apply (IH Hs i j x y); [lia|assumption..].
  Qed.

  Lemma find_app {A} (f : A -> bool) l1 l2 : find f (l1 ++ l2) = match find f l1 with Some x => Some x | None => find f l2 end.
  Proof. induction l1 as [|x l1 IH]; [reflexivity|]. cbn. destruct (f x); [reflexivity|exact IH]. Qed.

  Lemma first_match_some test levels p : first_match test levels = Some p ->
    exists A l B, levels = A ++ l :: B /\ In p l /\ test p = true /\ forall q, In q (concat A) -> test q = false.
  Proof.
    induction levels as [|l levels IH]; [discriminate|]. cbn. destruct (find test l) as [x|] eqn:Ef.
    - intros [= ->]. apply find_some in Ef. exists [], l, levels. split; [reflexivity|]. split; [apply Ef|]. split; [apply Ef|]. intros q [].
    - intros H. destruct (IH H) as [A [l' [B [-> [H1 [H2 H3]]]]]]. exists (l :: A), l', B. split; [reflexivity|]. split; [exact H1|]. split; [exact H2|].
      intros q Hq. cbn in Hq. apply in_app_or in Hq. destruct Hq as [Hq|Hq]; [exact (find_none _ _ Ef q Hq)|apply H3; exact Hq].
  Qed.
  Lemma first_match_none test levels : first_match test levels = None -> forall q, In q (concat levels) -> test q = false.
  Proof.
    induction levels as [|l levels IH]; [intros _ q []|]. cbn. destruct (find test l) as [x|] eqn:Ef; [discriminate|].
    intros H q Hq. apply in_app_or in Hq. destruct Hq as [Hq|Hq]; [exact (find_none _ _ Ef q Hq)|exact (IH H q Hq)].
  Qed.

  Lemma push_last_concat levels x : levels <> [] -> concat (push_last levels x) = concat levels ++ [x].
  Proof.
    induction levels as [|l levels IH]; [congruence|]. intros _. destruct levels as [|l' levels]; [cbn; rewrite !app_nil_r; reflexivity|].
    change (push_last (l :: l' :: levels) x) with (l :: push_last (l' :: levels) x). cbn [concat]. rewrite IH by discriminate. rewrite app_assoc. reflexivity.
  Qed.
  Lemma push_last_snoc A l x : push_last (A ++ [l]) x = A ++ [l ++ [x]].
  Proof. induction A as [|a A IH]; [reflexivity|]. cbn [app]. destruct (A ++ [l]) eqn:E; [destruct A; discriminate|]. rewrite <- E in *. cbn. rewrite E, <- E, IH. reflexivity. Qed.

  Definition ok_link i c p := p < c < i /\ included (set_at c) (set_at p) /\ forall q, q < c -> included (set_at c) (set_at q) -> sz p <= sz q.

  Record inv (k i : nat) (st : tree_state) : Prop := {
    i_perm : Permutation (ts_tops st ++ map fst (ts_links st)) (seq 0 i);
    i_links : forall c p, In (c, p) (ts_links st) -> k <= c /\ ok_link i c p;
    i_tops : forall t, In t (ts_tops st) -> t < i /\ (k <= t -> forall q, q < t -> ~ included (set_at t) (set_at q));
    i_tops_first : forall t, t < k -> In t (ts_tops st);
    i_levels : concat (ts_levels st) = seq k (i - k);
    i_level_eq : forall l, In l (ts_levels st) -> forall x y, In x l -> In y l -> sz x = sz y;
    i_last : exists A l, ts_levels st = A ++ [l] /\ forall x, In x l -> sz x = ts_length st;
    i_len : forall j, i <= j -> j < length nodes -> sz j <= ts_length st
  }.

  Lemma first_match_rev levels test p a n : concat levels = seq a n -> (forall l, In l levels -> forall x y, In x l -> In y l -> sz x = sz y) ->
    a + n <= length nodes -> first_match test (rev levels) = Some p ->
    a <= p < a + n /\ test p = true /\ forall q, a <= q < a + n -> test q = true -> sz p <= sz q.
  Proof.
    intros Hc He Hn Hf. apply first_match_some in Hf. destruct Hf as [A [l [B [E [H1 [H2 H3]]]]]].
    assert (E' : levels = rev B ++ l :: rev A). { rewrite <- (rev_involutive levels), E, rev_app_distr. cbn. rewrite <- app_assoc. reflexivity. }
    assert (Hp : In p (seq a n)). { rewrite <- Hc, E', concat_app. cbn. apply in_or_app. right. apply in_or_app. left. exact H1. }
    apply in_seq in Hp. split; [exact Hp|]. split; [exact H2|]. intros q Hq Ht.
    assert (Hq' : In q (concat levels)) by (rewrite Hc; apply in_seq; exact Hq).
    rewrite E', concat_app in Hq'. cbn in Hq'. apply in_app_or in Hq'. destruct Hq' as [Hq'|Hq'].
    - apply sz_mono; [|lia]. assert (Hlt : q < p); [|lia].
      assert (Hs : StronglySorted lt (concat levels)) by (rewrite Hc; apply seq_sorted).
      rewrite E', concat_app in Hs. cbn in Hs. clear -Hs Hq' H1. induction (concat (rev B)) as [|b r IH]; [destruct Hq'|].
      cbn in Hs. inversion Hs as [|? ? Hs' HF]; subst. destruct Hq' as [->|Hq']; [|apply IH; assumption].
      rewrite Forall_forall in HF. apply HF. apply in_or_app. right. apply in_or_app. left. exact H1.
    - apply in_app_or in Hq'. destruct Hq' as [Hq'|Hq'].
      + assert (sz p = sz q); [|lia]. apply (He l); [rewrite E'; apply in_or_app; right; left; reflexivity|assumption..].
      + exfalso. assert (Hf : test q = false); [|congruence]. apply H3. apply in_concat in Hq'. destruct Hq' as [m [Hm1 Hm2]].
        apply in_concat. exists m. split; [apply in_rev; exact Hm1|exact Hm2].
  Qed.

  Lemma step_inv k i st : k <= i -> i < length nodes -> (forall j j', j < k -> j' < k -> sz j = sz j') ->
    inv k i st -> inv k (S i) (tree_step nodes st i).
  Proof.
    intros Hki Hi Hk [P1 P2 P3 P3' P4 P5 P6 P7]. unfold tree_step.
    set (ll := if length (set_at i) <? ts_length st then (ts_levels st ++ [[]], length (set_at i)) else (ts_levels st, ts_length st)).
    assert (Hll : concat (fst ll) = seq k (i - k) /\ (forall l, In l (fst ll) -> forall x y, In x l -> In y l -> sz x = sz y) /\
      (exists A l, fst ll = A ++ [l] /\ forall x, In x l -> sz x = snd ll) /\ snd ll = sz i).
    { unfold ll. destruct (Nat.ltb_spec (length (set_at i)) (ts_length st)) as [H|H]; cbn [fst snd].
      - split; [rewrite concat_app; cbn; rewrite !app_nil_r; exact P4|]. split.
        + intros l Hl. apply in_app_or in Hl. destruct Hl as [Hl|[<-|[]]]; [apply P5; exact Hl|intros x y []].
        + split; [|reflexivity]. exists (ts_levels st), []. split; [reflexivity|intros x []].
      - split; [exact P4|]. split; [exact P5|]. split; [exact P6|]. specialize (P7 i (le_n _) Hi). unfold sz in *. lia. }
    destruct ll as [levels len]. cbn [fst snd] in Hll. destruct Hll as [L1 [L2 [[A [lst [L3 L4]]] L5]]]. subst len.
    set (test := fun p => contains_set (set_at p) (set_at i)).
    assert (Hlv : inv k (S i) (mkTS (ts_links st) (ts_tops st) (push_last levels i) (sz i)) -> True) by auto. clear Hlv.
    assert (C1 : concat (push_last levels i) = seq k (S i - k)).
    { rewrite push_last_concat by (rewrite L3; destruct A; discriminate). rewrite L1. replace (S i - k) with (i - k + 1) by lia. rewrite seq_app. cbn. do 2 f_equal. lia. }
    assert (C2 : forall l, In l (push_last levels i) -> forall x y, In x l -> In y l -> sz x = sz y).
    { rewrite L3, push_last_snoc. intros l Hl. apply in_app_or in Hl. destruct Hl as [Hl|[<-|[]]].
      - apply L2. rewrite L3. apply in_or_app. left; exact Hl.
      - assert (G : forall x, In x (lst ++ [i]) -> sz x = sz i). { intros x Hx. apply in_app_or in Hx. destruct Hx as [Hx|[<-|[]]]; [apply L4; exact Hx|reflexivity]. }
        intros x y Hx Hy. rewrite (G x Hx), (G y Hy). reflexivity. }
    assert (C3 : exists A l, push_last levels i = A ++ [l] /\ forall x, In x l -> sz x = sz i).
    { rewrite L3, push_last_snoc. exists A, (lst ++ [i]). split; [reflexivity|]. intros x Hx. apply in_app_or in Hx. destruct Hx as [Hx|[<-|[]]]; [apply L4; exact Hx|reflexivity]. }
    assert (C4 : forall j, S i <= j -> j < length nodes -> sz j <= sz i) by (intros j H1 H2; apply sz_mono; lia).
    assert (Hseq : seq 0 (S i) = seq 0 i ++ [i]) by (rewrite seq_S; reflexivity).
    (* all candidates before i *)
    assert (Hcand : forall q, q < i -> In q (concat levels) \/ q < k). { intros q Hq. rewrite L1, in_seq. lia. }
    assert (Hfound : forall p, match first_match test (rev levels) with Some p => Some p | None => find test (ts_tops st) end = Some p -> ok_link (S i) i p).
    { intros p Hf. destruct (first_match test (rev levels)) as [p'|] eqn:Em.
      - injection Hf as ->. destruct (first_match_rev levels test p k (i - k) L1 L2 ltac:(lia) Em) as [M1 [M2 M3]]. apply contains_set_iff in M2.
        split; [lia|]. split; [exact M2|]. intros q Hq Hinc. destruct (le_lt_dec k q) as [Hkq|Hkq].
        + apply M3; [lia|]. apply contains_set_iff. exact Hinc.
        + apply sz_mono; lia.
      - apply find_some in Hf. destruct Hf as [Hf1 Hf2]. apply contains_set_iff in Hf2. destruct (P3 p Hf1) as [Hp _].
        assert (Hpk : p < k). { destruct (le_lt_dec k p) as [H|H]; [|exact H]. exfalso.
          assert (Ht : test p = false). { apply (first_match_none test (rev levels) Em). apply in_concat.
            assert (Hin : In p (concat levels)) by (rewrite L1; apply in_seq; lia). apply in_concat in Hin. destruct Hin as [m [Hm1 Hm2]].
            exists m. split; [apply in_rev; rewrite rev_involutive; exact Hm1|exact Hm2]. }
          assert (test p = true) by (apply contains_set_iff; exact Hf2). congruence. }
        split; [lia|]. split; [exact Hf2|]. intros q Hq Hinc. destruct (le_lt_dec k q) as [Hkq|Hkq].
        + exfalso. assert (Ht : test q = false). { apply (first_match_none test (rev levels) Em). apply in_concat.
            assert (Hin : In q (concat levels)) by (rewrite L1; apply in_seq; lia). apply in_concat in Hin. destruct Hin as [m [Hm1 Hm2]].
            exists m. split; [apply in_rev; rewrite rev_involutive; exact Hm1|exact Hm2]. }
          assert (test q = true) by (apply contains_set_iff; exact Hinc). congruence.
        + rewrite (Hk p q Hpk Hkq). lia. }
    destruct (match first_match test (rev levels) with Some p => Some p | None => find test (ts_tops st) end) as [p|] eqn:Ef.
    - specialize (Hfound p eq_refl). constructor; cbn [ts_tops ts_links ts_levels ts_length]; try assumption.
      + rewrite map_app, Hseq. cbn [map fst]. rewrite app_assoc. apply Permutation_app; [exact P1|reflexivity].
      + intros c q Hin. apply in_app_or in Hin. destruct Hin as [Hin|[Hin|[]]].
        * destruct (P2 c q Hin) as [H1 [H2 [H3 H4]]]. split; [exact H1|]. split; [lia|]. split; assumption.
        * injection Hin as <- <-. split; [exact Hki|exact Hfound].
      + intros t Ht. destruct (P3 t Ht) as [H1 H2]. split; [lia|exact H2].
    - constructor; cbn [ts_tops ts_links ts_levels ts_length]; try assumption.
      + rewrite Hseq, <- app_assoc. cbn [app].
        transitivity (i :: ts_tops st ++ map fst (ts_links st)); [symmetry; apply Permutation_middle|].
        rewrite P1. apply Permutation_cons_append.
      + intros c q Hin. destruct (P2 c q Hin) as [H1 [H2 [H3 H4]]]. split; [exact H1|]. split; [lia|]. split; assumption.
      + intros t Ht. apply in_app_or in Ht. destruct Ht as [Ht|[<-|[]]].
        * destruct (P3 t Ht) as [H1 H2]. split; [lia|exact H2].
        * split; [lia|]. intros _ q Hq Hinc. destruct (first_match test (rev levels)) as [p'|] eqn:Em; [discriminate|].
          assert (Htq : test q = true) by (apply contains_set_iff; exact Hinc).
          destruct (Hcand q Hq) as [Hin|Hlt].
          -- assert (Ht : test q = false); [|congruence]. apply (first_match_none test (rev levels) Em). apply in_concat.
             apply in_concat in Hin. destruct Hin as [m [Hm1 Hm2]]. exists m. split; [apply in_rev; rewrite rev_involutive; exact Hm1|exact Hm2].
          -- pose proof (find_none _ _ Ef q (P3' q Hlt)). congruence.
      + intros t Ht. apply in_or_app. left. apply P3'. exact Ht.
  Qed.

  Lemma fold_inv k : (forall j j', j < k -> j' < k -> sz j = sz j') -> forall m i st, i + m <= length nodes -> k <= i -> inv k i st ->
    inv k (i + m) (fold_left (tree_step nodes) (seq i m) st).
  Proof.
    intros Hk. induction m as [|m IH]; intros i st Hm Hi Hinv; [rewrite Nat.add_0_r; exact Hinv|].
    cbn [seq fold_left]. replace (i + S m) with (S i + m) by lia. apply IH; [lia|lia|]. apply step_inv; [lia|lia|exact Hk|exact Hinv].
  Qed.

  Lemma count_leading_spec max l : count_leading max l <= length l /\ (forall i x, i < count_leading max l -> nth_error l i = Some x -> size x = max) /\
    (forall x, nth_error l (count_leading (D := D) max l) = Some x -> size x <> max).
  Proof.
    induction l as [|y l IH]; [cbn; split; [lia|]; split; [intros i x Hi; lia|discriminate]|]. cbn [count_leading].
    destruct (Nat.eqb_spec (length (rn_set y)) max) as [E|E].
    - destruct IH as [I1 [I2 I3]]. cbn [length]. split; [lia|]. split; [|exact I3]. intros [|i] x Hi Hx; cbn in Hx; [injection Hx as <-; exact E|]. apply (I2 i x); [lia|exact Hx].
    - split; [lia|]. split; [intros i x Hi; lia|]. cbn. intros x [= <-]. exact E.
  Qed.

  (** The result on the index level. *)
  Lemma build_links_spec :
    let links := fst (build_links nodes) in let tops := snd (build_links nodes) in let n := length nodes in
    Permutation (tops ++ map fst links) (seq 0 n) /\
    (forall c p, In (c, p) links -> ok_link n c p) /\
    (forall t, In t tops -> forall q, q < n -> included (set_at t) (set_at q) -> q < t -> sz q = sz t) /\
    (forall c p, In (c, p) links -> sz c < sz 0).
  Proof.
    cbv zeta. unfold build_links. destruct nodes as [|x r] eqn:En; [cbn; split; [constructor|]; split; [intros c p []|split; [intros t []|intros c p []]]|]. rewrite <- En in *.
    destruct (count_leading_spec (length (rn_set x)) nodes) as [K1 [K2 K3]]. set (k := count_leading (length (rn_set x)) nodes) in *.
    assert (Hk : forall j, j < k -> sz j = length (rn_set x)).
    { intros j Hj. unfold sz, TreeModel.set_at. destruct (nth_error nodes j) as [y|] eqn:E; [|apply nth_error_None in E; lia]. apply (K2 j y Hj E). }
    assert (H0 : sz 0 = length (rn_set x)) by (unfold sz, TreeModel.set_at; rewrite En; reflexivity).
    assert (Hk0 : 0 < k). { unfold k. rewrite En. cbn. rewrite Nat.eqb_refl. lia. }
    destruct (Nat.eqb_spec k (length nodes)) as [E|E]; cbn [fst snd].
    - split; [rewrite E, app_nil_r; reflexivity|]. split; [intros c p []|]. split; [|intros c p []].
      intros t Ht q Hq _ _. apply in_seq in Ht. rewrite (Hk t), (Hk q) by lia. reflexivity.
    - assert (Hsk : forall j, k <= j -> j < length nodes -> sz j < sz 0).
      { intros j H1 H2. pose proof (sz_mono k j H1 H2) as M1. pose proof (sz_mono 0 k ltac:(lia) ltac:(lia)) as M2.
        assert (sz k <> sz 0); [|lia]. rewrite H0. unfold sz, TreeModel.set_at. destruct (nth_error nodes k) as [y|] eqn:Ey; [|apply nth_error_None in Ey; lia]. apply (K3 y eq_refl). }
      assert (Hinit : inv k k (mkTS [] (seq 0 k) [[]] (length (set_at k)))).
      { constructor; cbn [ts_tops ts_links ts_levels ts_length].
        - rewrite app_nil_r. reflexivity.
        - intros c p [].
        - intros t Ht. apply in_seq in Ht. split; lia.
        - intros t Ht. apply in_seq. lia.
        - rewrite Nat.sub_diag. reflexivity.
        - intros l [<-|[]] a b [].
        - exists [], []. split; [reflexivity|intros a []].
        - intros j H1 H2. apply sz_mono; assumption. }
      pose proof (fold_inv k ltac:(intros j j' Hj Hj'; rewrite !Hk by assumption; reflexivity) (length nodes - k) k _ ltac:(lia) ltac:(lia) Hinit) as Hinv.
      replace (k + (length nodes - k)) with (length nodes) in Hinv by lia. unfold range.
      set (st := fold_left (tree_step nodes) (seq k (length nodes - k)) (mkTS [] (seq 0 k) [[]] (length (set_at k)))) in *.
      destruct Hinv as [P1 P2 P3 P3' _ _ _ _]. split; [exact P1|]. split; [intros c p Hin; apply (P2 c p Hin)|]. split.
      + intros t Ht q Hq Hinc Hlt. destruct (P3 t Ht) as [_ H]. destruct (le_lt_dec k t) as [Hkt|Hkt]; [exfalso; exact (H Hkt q Hlt Hinc)|].
        rewrite (Hk t), (Hk q) by lia. reflexivity.
      + intros c p Hin. destruct (P2 c p Hin) as [H1 [H2 _]]. apply Hsk; [exact H1|lia].
  Qed.
End Build.

Section Reify.
  Context {D : Type}.
  Variable nodes : list (raw_node D).
  Variable links : list (nat * nat).
  Notation n := (length nodes).
  Hypothesis Hlt : forall c p, In (c, p) links -> p < c < n.
  Hypothesis Huniq : NoDup (map fst links).

  Definition kids i := map fst (filter (fun l => snd l =? i) links).
  Lemma in_kids c i : In c (kids i) <-> In (c, i) links.
  Proof.
    unfold kids. rewrite in_map_iff. split.
    - intros [[a b] [<- H]]. apply filter_In in H. destruct H as [H E]. apply Nat.eqb_eq in E. cbn in *. subst. exact H.
    - intros H. exists (c, i). split; [reflexivity|]. apply filter_In. split; [exact H|]. apply Nat.eqb_refl.
  Qed.
  Lemma kids_nodup i : NoDup (kids i).
  Proof.
    unfold kids. clear Hlt. induction links as [|[c p] l IH]; [constructor|]. cbn in *. inversion Huniq as [|? ? H1 H2]; subst.
    destruct (p =? i); [|apply IH; exact H2]. cbn. constructor; [|apply IH; exact H2]. intros Hin. apply H1.
    apply in_map_iff in Hin. destruct Hin as [x [E Hx]]. apply filter_In in Hx. apply in_map_iff. exists x. tauto.
  Qed.

  Fixpoint sub fuel i : list nat := match fuel with O => [] | S f => i :: flat_map (sub f) (kids i) end.

  Definition grow fuel i := match reify nodes links fuel i with Some a => [a] | None => [] end.

  Lemma reify_eq f i : reify nodes links (S f) i =
    match nth_error nodes i with None => None | Some x => Some (ANode (rn_data x) (rn_set x) (flat_map (grow f) (kids i))) end.
  Proof.
    cbn [reify]. destruct (nth_error nodes i) as [x|]; [|reflexivity]. do 2 f_equal. clear Hlt Huniq. unfold kids, grow.
    induction links as [|[c p] l IH] at 2 4; [reflexivity|]. cbn. destruct (p =? i); cbn; rewrite IH; reflexivity.
  Qed.

  Lemma reify_some f i : n - i <= f -> i < n -> exists x, nth_error nodes i = Some x /\
    exists f', f = S f' /\ reify nodes links f i = Some (ANode (rn_data x) (rn_set x) (flat_map (grow f') (kids i))).
  Proof.
    intros H1 H2. destruct f as [|f]; [lia|]. rewrite reify_eq. destruct (nth_error nodes i) as [x|] eqn:E; [|apply nth_error_None in E; lia].
    exists x. split; [reflexivity|]. exists f. split; reflexivity.
  Qed.

  Lemma map_flat_map {A B C} (f : B -> C) (g : A -> list B) l : map f (flat_map g l) = flat_map (fun x => map f (g x)) l.
  Proof. induction l as [|x l IH]; [reflexivity|]. cbn. rewrite map_app, IH. reflexivity. Qed.
  Lemma flat_map_flat_map {A B C} (f : B -> list C) (g : A -> list B) l : flat_map f (flat_map g l) = flat_map (fun x => flat_map f (g x)) l.
  Proof. induction l as [|x l IH]; [reflexivity|]. cbn. rewrite flat_map_app, IH. reflexivity. Qed.
  Lemma flat_map_ext_in {A B} (f g : A -> list B) l : (forall x, In x l -> f x = g x) -> flat_map f l = flat_map g l.
  Proof. induction l as [|x l IH]; intros H; [reflexivity|]. cbn. rewrite (H x (or_introl eq_refl)), IH; [reflexivity|]. intros y Hy. apply H. right; exact Hy. Qed.

  Lemma grow_fuel : forall f g i, n - i <= f -> n - i <= g -> i < n -> grow f i = grow g i.
  Proof.
    induction f as [|f IH]; intros g i Hf Hg Hi; [lia|]. unfold grow.
    destruct (reify_some (S f) i Hf Hi) as [x [Ex [f' [Ef ->]]]]. injection Ef as <-.
    destruct (reify_some g i Hg Hi) as [y [Ey [g' [Eg ->]]]]. assert (x = y) by congruence. subst y g. do 2 f_equal. apply flat_map_ext_in.
    intros k Hk. apply in_kids in Hk. apply Hlt in Hk. apply IH; lia.
  Qed.

  Definition src_at i := match nth_error nodes i with Some x => [(rn_data x, rn_set x)] | None => [] end.

  Lemma grow_sources : forall f i, n - i <= f -> i < n -> map source (flat_map nodes_of (grow f i)) = flat_map src_at (sub f i).
  Proof.
    induction f as [|f IH]; intros i Hf Hi; [lia|]. unfold grow. destruct (reify_some (S f) i Hf Hi) as [x [Ex [f' [Ef ->]]]]. injection Ef as <-.
    cbn [flat_map nodes_of sub]. rewrite app_nil_r. cbn [map source an_data an_set]. unfold src_at at 1. rewrite Ex. cbn [app]. f_equal.
    rewrite flat_map_flat_map, map_flat_map, flat_map_flat_map. apply flat_map_ext_in. intros k Hk. apply in_kids in Hk. apply Hlt in Hk. apply IH; lia.
  Qed.

  Inductive anc (a : nat) : nat -> Prop :=
  | anc_refl : anc a a
  | anc_step p c : anc a p -> In (c, p) links -> anc a c.

  Lemma anc_le a x : anc a x -> a <= x.
  Proof. induction 1 as [|p c _ IH Hl]; [lia|]. apply Hlt in Hl. lia. Qed.
  Lemma parent_unique c p q : In (c, p) links -> In (c, q) links -> p = q.
  Proof.
    clear Hlt. induction links as [|[c' p'] l IH]; [intros []|]. cbn in *. inversion Huniq as [|? ? H1 H2]; subst.
    intros [E|H] [E'|H'].
    - congruence.
    - injection E as -> ->. exfalso. apply H1. apply in_map_iff. exists (c, q). split; [reflexivity|exact H'].
    - injection E' as -> ->. exfalso. apply H1. apply in_map_iff. exists (c, p). split; [reflexivity|exact H].
    - apply IH; assumption.
  Qed.
  Lemma anc_chain a b x : anc a x -> anc b x -> anc a b \/ anc b a.
  Proof.
    intros Ha. revert b. induction Ha as [|p c Ha IH Hl]; intros b Hb; [right; exact Hb|].
    inversion Hb as [|q c' Hq Hl']; subst; [left; econstructor; eassumption|]. rewrite (parent_unique _ _ _ Hl' Hl) in Hq. apply IH; exact Hq.
  Qed.
  Lemma anc_trans a b c : anc a b -> anc b c -> anc a c.
  Proof. intros Hab. induction 1 as [|p c _ IH Hl]; [exact Hab|]. econstructor; eassumption. Qed.

  Lemma sub_anc : forall f i x, n - i <= f -> i < n -> (In x (sub f i) <-> anc i x).
  Proof.
    induction f as [|f IH]; intros i x Hf Hi; [lia|]. cbn [sub]. split.
    - intros [<-|Hx]; [constructor|]. apply in_flat_map in Hx. destruct Hx as [k [Hk Hx]]. apply in_kids in Hk. pose proof (Hlt _ _ Hk).
      apply IH in Hx; [|lia|lia]. apply (anc_trans i k); [|exact Hx]. econstructor; [constructor|exact Hk].
    - intros Ha. destruct (Nat.eq_dec i x) as [->|Hne]; [left; reflexivity|right]. apply in_flat_map.
      assert (Hk : exists k, In (k, i) links /\ anc k x).
      { clear -Ha Hne. induction Ha as [|p c Ha IH Hl]; [congruence|]. destruct (Nat.eq_dec i p) as [->|Hp]; [exists c; split; [exact Hl|constructor]|].
        destruct (IH Hp) as [k [Hk Hkp]]. exists k. split; [exact Hk|]. econstructor; eassumption. }
      destruct Hk as [k [Hk Hkx]]. exists k. split; [apply in_kids; exact Hk|]. pose proof (Hlt _ _ Hk). apply IH; [lia|lia|exact Hkx].
  Qed.

  Lemma NoDup_flat_map {A B} (f : A -> list B) l : NoDup l -> (forall a, In a l -> NoDup (f a)) ->
    (forall a b x, In a l -> In b l -> In x (f a) -> In x (f b) -> a = b) -> NoDup (flat_map f l).
  Proof.
    induction 1 as [|a l Ha Hl IH]; intros H1 H2; [constructor|]. cbn. apply SplitProofs.NoDup_app.
    - apply H1. left; reflexivity.
    - apply IH; [intros b Hb; apply H1; right; exact Hb|]. intros b c x Hb Hc. apply H2; right; assumption.
    - intros x Hx Hx'. apply in_flat_map in Hx'. destruct Hx' as [b [Hb Hxb]].
      assert (a = b) by (apply (H2 a b x); [left; reflexivity|right; exact Hb|exact Hx|exact Hxb]). subst. contradiction.
  Qed.

  Lemma sub_nodup : forall f i, n - i <= f -> i < n -> NoDup (sub f i).
  Proof.
    induction f as [|f IH]; intros i Hf Hi; [lia|]. cbn [sub]. constructor.
    - intros Hx. apply in_flat_map in Hx. destruct Hx as [k [Hk Hx]]. apply in_kids in Hk. pose proof (Hlt _ _ Hk). apply sub_anc in Hx; [|lia|lia]. apply anc_le in Hx. lia.
    - apply NoDup_flat_map; [apply kids_nodup| |].
      + intros k Hk. apply in_kids in Hk. pose proof (Hlt _ _ Hk). apply IH; lia.
      + assert (G : forall a b (x : nat), In (a, i) links -> In (b, i) links -> anc a b -> a = b).
        { intros a b x Ha Hb Hab. inversion Hab as [|p c Hp Hl]; subst; [reflexivity|]. rewrite (parent_unique _ _ _ Hl Hb) in Hp. apply anc_le in Hp. apply Hlt in Ha. lia. }
        intros a b x Ha Hb Hxa Hxb. apply in_kids in Ha, Hb. pose proof (Hlt _ _ Ha). pose proof (Hlt _ _ Hb).
        apply sub_anc in Hxa; [|lia|lia]. apply sub_anc in Hxb; [|lia|lia]. destruct (anc_chain a b x Hxa Hxb) as [Hab|Hab].
        * apply (G a b x Ha Hb Hab).
        * symmetry. apply (G b a x Hb Ha Hab).
  Qed.

  Variable tops : list nat.
  Hypothesis Hperm : Permutation (tops ++ map fst links) (seq 0 n).

  Lemma top_lt t : In t tops -> t < n.
  Proof. intros H. assert (In t (seq 0 n)) as Hs by (apply (Permutation_in _ Hperm); apply in_or_app; left; exact H). apply in_seq in Hs. lia. Qed.
  Lemma top_no_parent t p : In t tops -> ~ In (t, p) links.
  Proof.
    intros H Hl. assert (Hnd : NoDup (tops ++ map fst links)) by (apply (Permutation_NoDup (Permutation_sym Hperm)), seq_NoDup).
    assert (Hin : In t (map fst links)) by (apply in_map_iff; exists (t, p); split; [reflexivity|exact Hl]).
    clear -H Hin Hnd. induction tops as [|a l IH]; [destruct H|]. cbn in Hnd. inversion Hnd as [|? ? H1 H2]; subst.
    destruct H as [->|H]; [apply H1; apply in_or_app; right; exact Hin|apply IH; assumption].
  Qed.

  Lemma below_top x : x < n -> exists t, In t tops /\ anc t x.
  Proof.
    induction x as [x IH] using lt_wf_ind. intros Hx.
    assert (Hin : In x (tops ++ map fst links)) by (apply (Permutation_in _ (Permutation_sym Hperm)), in_seq; lia).
    apply in_app_or in Hin. destruct Hin as [Hin|Hin]; [exists x; split; [exact Hin|constructor]|].
    apply in_map_iff in Hin. destruct Hin as [[c p] [E Hl]]. cbn in E. subst c. pose proof (Hlt _ _ Hl).
    destruct (IH p) as [t [Ht Hp]]; [lia|lia|]. exists t. split; [exact Ht|]. econstructor; eassumption.
  Qed.

  Lemma forest_perm : Permutation (flat_map (sub n) tops) (seq 0 n).
  Proof.
    apply NoDup_Permutation; [|apply seq_NoDup|].
    - apply NoDup_flat_map.
      + assert (Hnd : NoDup (tops ++ map fst links)) by (apply (Permutation_NoDup (Permutation_sym Hperm)), seq_NoDup).
        clear -Hnd. induction tops as [|a l IH]; [constructor|]. cbn in Hnd. inversion Hnd as [|? ? H1 H2]; subst. constructor; [|apply IH; exact H2]. intros H. apply H1. apply in_or_app. left; exact H.
      + intros t Ht. apply top_lt in Ht. apply sub_nodup; lia.
      + assert (G : forall a b, In a tops -> In b tops -> anc a b -> a = b).
        { intros a b Ha Hb Hab. inversion Hab as [|p c Hp Hl]; subst; [reflexivity|]. exfalso. exact (top_no_parent b p Hb Hl). }
        intros a b x Ha Hb Hxa Hxb. pose proof (top_lt a Ha). pose proof (top_lt b Hb). apply sub_anc in Hxa; [|lia|lia]. apply sub_anc in Hxb; [|lia|lia].
        destruct (anc_chain a b x Hxa Hxb) as [Hab|Hab]; [apply G; assumption|symmetry; apply G; assumption].
    - intros x. rewrite in_seq, in_flat_map. split.
      + intros [t [Ht Hx]]. pose proof (top_lt t Ht). apply sub_anc in Hx; [|lia|lia]. split; [lia|]. inversion Hx as [|p c Hp Hl]; subst; [lia|]. apply Hlt in Hl. lia.
      + intros [_ Hx]. destruct (below_top x Hx) as [t [Ht Ha]]. exists t. split; [exact Ht|]. apply sub_anc; [lia|apply top_lt; exact Ht|exact Ha].
  Qed.

  Definition forest := flat_map (grow n) tops.

  Lemma forest_sources : Permutation (map source (flat_map nodes_of forest)) (map (fun r => (rn_data r, rn_set r)) nodes).
  Proof.
    unfold forest. rewrite flat_map_flat_map, map_flat_map.
    rewrite (flat_map_ext_in _ (fun t => flat_map src_at (sub n t))) by (intros t Ht; apply grow_sources; [lia|apply top_lt; exact Ht]).
    rewrite <- flat_map_flat_map. rewrite forest_perm. clear.
    assert (G : forall m (l pre : list (raw_node D)), nodes = pre ++ l -> m = length pre -> flat_map src_at (seq m (length l)) = map (fun r => (rn_data r, rn_set r)) l).
    { intros m l. revert m. induction l as [|x l IH]; intros m pre E Em; [reflexivity|]. cbn [length seq flat_map map].
      rewrite (IH (S m) (pre ++ [x])); [|rewrite E, <- app_assoc; reflexivity|rewrite app_length; cbn; lia].
      unfold src_at. rewrite E, Em, nth_error_app2, Nat.sub_diag by lia. reflexivity. }
    rewrite (G 0 nodes [] eq_refl eq_refl). reflexivity.
  Qed.

  (** every tree node comes from an index, with enough fuel left *)
  Lemma in_grow : forall f i, n - i <= f -> i < n -> forall b, In b (flat_map nodes_of (grow f i)) -> exists j, anc i j /\ j < n /\ grow n j = [b].
  Proof.
    induction f as [|f IH]; intros i Hf Hi b Hb; [lia|].
    unfold grow in Hb. destruct (reify_some (S f) i Hf Hi) as [x [Ex [f' [Ef Er]]]]. injection Ef as <-. rewrite Er in Hb.
    cbn [flat_map nodes_of] in Hb. rewrite app_nil_r in Hb. destruct Hb as [<-|Hb].
    - exists i. split; [constructor|]. split; [exact Hi|]. rewrite (grow_fuel n (S f) i) by lia. unfold grow. rewrite Er. reflexivity.
    - rewrite flat_map_flat_map in Hb. apply in_flat_map in Hb. destruct Hb as [k [Hk Hb]]. apply in_kids in Hk. pose proof (Hlt _ _ Hk).
      destruct (IH k ltac:(lia) ltac:(lia) b Hb) as [j [H1 [H2 H3]]]. exists j. split; [|split; assumption]. apply (anc_trans i k); [|exact H1]. econstructor; [constructor|exact Hk].
  Qed.
  Lemma grow_one i : i < n -> exists a, grow n i = [a] /\ an_set a = set_at nodes i /\ an_children a = flat_map (grow n) (kids i).
  Proof.
    intros Hi. destruct (reify_some n i ltac:(lia) Hi) as [x [Ex [f' [Ef Er]]]]. unfold grow at 1. rewrite Er. eexists. split; [reflexivity|]. cbn [an_set an_children].
    split; [unfold set_at; rewrite Ex; reflexivity|]. apply flat_map_ext_in. intros k Hk. apply in_kids in Hk. apply Hlt in Hk. apply grow_fuel; lia.
  Qed.
  Lemma in_forest b : In b (flat_map nodes_of forest) -> exists j, j < n /\ grow n j = [b].
  Proof.
    unfold forest. rewrite flat_map_flat_map. intros H. apply in_flat_map in H. destruct H as [t [Ht Hb]]. pose proof (top_lt t Ht).
    destruct (in_grow n t ltac:(lia) ltac:(lia) b Hb) as [j [_ H']]. exists j. exact H'.
  Qed.
End Reify.

Lemma NoDup_same_size (a b : list N) : NoDup a -> included a b -> length b <= length a -> included b a.
Proof. intros Hn Hi Hl. exact (NoDup_length_incl Hn Hl Hi). Qed.

Lemma distinct_perm {D} : forall l l' : list (raw_node D), Permutation l l' ->
  (forall i j x y, nth_error l i = Some x -> nth_error l j = Some y -> included (rn_set x) (rn_set y) -> included (rn_set y) (rn_set x) -> i = j) ->
  (forall i j x y, nth_error l' i = Some x -> nth_error l' j = Some y -> included (rn_set x) (rn_set y) -> included (rn_set y) (rn_set x) -> i = j).
Proof.
  intros l l' HP. induction HP as [|x l l' HP IH|x y l|l l' l'' _ IH1 _ IH2]; intros H.
        - intros i j x y Hi. destruct i; discriminate.
        - assert (Hx : forall y, In y l' -> included (rn_set x) (rn_set y) -> included (rn_set y) (rn_set x) -> False).
          { intros y Hy H1 H2. apply (Permutation_in _ (Permutation_sym HP)) in Hy. apply In_nth_error in Hy. destruct Hy as [m Hm]. specialize (H 0 (S m) x y eq_refl Hm H1 H2). discriminate. }
          assert (H' := IH (fun i j a b Ha Hb H1 H2 => eq_add_S _ _ (H (S i) (S j) a b Ha Hb H1 H2))).
          intros [|i] [|j] a b Ha Hb H1 H2; cbn in Ha, Hb.
          + reflexivity.
          + injection Ha as <-. exfalso. apply (Hx b); [eapply nth_error_In; exact Hb|exact H1|exact H2].
          + injection Hb as <-. exfalso. apply (Hx a); [eapply nth_error_In; exact Ha|exact H2|exact H1].
          + f_equal. apply (H' i j a b); assumption.
        - set (sw := fun i => match i with 0 => 1 | 1 => 0 | S (S k) => S (S k) end).
          assert (Hsw : forall i, nth_error (x :: y :: l) i = nth_error (y :: x :: l) (sw i)) by (intros [|[|i]]; reflexivity).
          intros i j a b Ha Hb H1 H2. rewrite Hsw in Ha, Hb. specialize (H _ _ _ _ Ha Hb H1 H2). destruct i as [|[|i]], j as [|[|j]]; cbn in H; lia.
        - apply IH2, IH1, H.
Qed.

Section Final.
  Context {D : Type}.
  Variable input : list (raw_node D).
  Let nodes := sort_desc input.
  Let links := fst (build_links nodes).
  Let tops := snd (build_links nodes).

  Lemma forest_eq : build_repeat_set_tree input = forest nodes links tops.
  Proof. unfold build_repeat_set_tree, forest, grow, links, tops, nodes. destruct (build_links (sort_desc input)) as [l t]. reflexivity. Qed.

  Lemma facts :
    Permutation (tops ++ map fst links) (seq 0 (length nodes)) /\
    (forall c p, In (c, p) links -> ok_link nodes (length nodes) c p) /\
    (forall t, In t tops -> forall q, q < length nodes -> included (set_at nodes t) (set_at nodes q) -> q < t -> sz nodes q = sz nodes t).
  Proof. destruct (build_links_spec nodes (sort_desc_sorted input)) as [A [B [C _]]]. split; [exact A|]. split; [exact B|exact C]. Qed.

  Lemma links_lt : forall c p, In (c, p) links -> p < c < length nodes.
  Proof. intros c p H. apply facts in H. apply H. Qed.
  Lemma links_uniq : NoDup (map fst links).
  Proof.
    assert (H : NoDup (tops ++ map fst links)) by (apply (Permutation_NoDup (Permutation_sym (proj1 facts))), seq_NoDup).
    clear -H. induction tops as [|a l IH]; [exact H|]. cbn in H. inversion H; subst. apply IH. assumption.
  Qed.

  Lemma tree_sources_proof : Permutation (map source (flat_map nodes_of (build_repeat_set_tree input))) (map (fun r => (rn_data r, rn_set r)) input).
  Proof.
    rewrite forest_eq. rewrite (forest_sources nodes links links_lt links_uniq tops (proj1 facts)). apply Permutation_map. apply sort_desc_perm.
  Qed.

  Lemma in_nodes r : In r input <-> exists q, q < length nodes /\ nth_error nodes q = Some r.
  Proof.
    split.
    - intros H. apply (Permutation_in _ (Permutation_sym (sort_desc_perm input))) in H. apply In_nth_error in H. destruct H as [q Hq]. exists q. split; [|exact Hq]. apply nth_error_Some. fold nodes in Hq. rewrite Hq. discriminate.
    - intros [q [_ H]]. apply nth_error_In in H. apply (Permutation_in _ (sort_desc_perm input)) in H. exact H.
  Qed.

  Lemma child_link a b : In a (flat_map nodes_of (build_repeat_set_tree input)) -> child_of b a ->
    exists p c, In (c, p) links /\ an_set a = set_at nodes p /\ an_set b = set_at nodes c.
  Proof.
    rewrite forest_eq. intros Ha Hb. destruct (in_forest nodes links links_lt tops (proj1 facts) a Ha) as [p [Hp Ep]].
    destruct (grow_one nodes links links_lt p Hp) as [a' [Ea [E1 E2]]]. assert (a' = a) by congruence. subst a'.
    unfold child_of in Hb. rewrite E2 in Hb. apply in_flat_map in Hb. destruct Hb as [c [Hc Hb]]. apply in_kids in Hc. exists p, c. split; [exact Hc|]. split; [exact E1|].
    destruct (grow_one nodes links links_lt c) as [b' [Eb [E3 _]]]; [apply links_lt in Hc; lia|]. rewrite Eb in Hb. destruct Hb as [<-|[]]. exact E3.
  Qed.

  Lemma tree_children_proof : Forall (fun r => NoDup (rn_set r)) input ->
    forall a b, In a (flat_map nodes_of (build_repeat_set_tree input)) -> child_of b a ->
    included (an_set b) (an_set a) /\
    forall r, In r input -> included (an_set b) (rn_set r) -> ~ included (rn_set r) (an_set b) -> length (an_set a) <= length (rn_set r).
  Proof.
    intros Hnd a b Ha Hb. destruct (child_link a b Ha Hb) as [p [c [Hl [Ea Eb]]]]. rewrite Ea, Eb.
    pose proof (proj1 (proj2 facts) c p Hl) as [Hlt [Hinc Hmin]]. split; [exact Hinc|].
    intros r Hr Hi Hn. apply in_nodes in Hr. destruct Hr as [q [Hq Eq]].
    assert (Er : set_at nodes q = rn_set r) by (unfold set_at; rewrite Eq; reflexivity).
    destruct (lt_eq_lt_dec q c) as [[H|H]|H].
    - rewrite <- Er in *. apply Hmin; assumption.
    - subst q. exfalso. apply Hn. rewrite Er. intros x Hx; exact Hx.
    - exfalso. apply Hn. apply NoDup_same_size; [|exact Hi|].
      + unfold set_at. destruct (nth_error nodes c) as [y|] eqn:Ec; [|constructor]. rewrite Forall_forall in Hnd. apply Hnd. apply in_nodes. exists c. split; [apply Hlt|exact Ec].
      + rewrite <- Er. apply (sz_mono nodes (sort_desc_sorted input)); [lia|exact Hq].
  Qed.

  Lemma tree_roots_proof : Forall (fun r => NoDup (rn_set r)) input ->
    (forall i j x y, nth_error input i = Some x -> nth_error input j = Some y -> included (rn_set x) (rn_set y) -> included (rn_set y) (rn_set x) -> i = j) ->
    forall a, In a (flat_map nodes_of (build_repeat_set_tree input)) ->
    (In a (build_repeat_set_tree input) <-> forall r, In r input -> included (an_set a) (rn_set r) -> included (rn_set r) (an_set a)).
  Proof.
    intros Hnd Hdist a Ha. rewrite forest_eq in *.
    assert (Hnds : forall i, NoDup (set_at nodes i)).
    { intros i. unfold set_at. destruct (nth_error nodes i) as [y|] eqn:Ec; [|constructor]. rewrite Forall_forall in Hnd. apply Hnd. apply in_nodes. exists i. split; [apply nth_error_Some; congruence|exact Ec]. }
    split.
    - intros Hin r Hr Hinc. unfold forest in Hin. apply in_flat_map in Hin. destruct Hin as [t [Ht Hin]].
      pose proof (top_lt nodes links tops (proj1 facts) t Ht) as Hlt. destruct (grow_one nodes links links_lt t Hlt) as [a' [Ea [E1 _]]]. rewrite Ea in Hin. destruct Hin as [->|[]].
      rewrite E1 in *. apply in_nodes in Hr. destruct Hr as [q [Hq Eq]]. assert (Er : set_at nodes q = rn_set r) by (unfold set_at; rewrite Eq; reflexivity). rewrite <- Er in *.
      apply NoDup_same_size; [apply Hnds|exact Hinc|]. destruct (le_lt_dec t q) as [H|H].
      + apply (sz_mono nodes (sort_desc_sorted input)); [exact H|exact Hq].
      + pose proof (proj2 (proj2 facts) t Ht q Hq Hinc H) as E. unfold sz in E. rewrite E. apply le_n.
    - intros Hall. destruct (in_forest nodes links links_lt tops (proj1 facts) a Ha) as [j [Hj Ej]].
      assert (Hin : In j (tops ++ map fst links)) by (apply (Permutation_in _ (Permutation_sym (proj1 facts))), in_seq; lia).
      apply in_app_or in Hin. destruct Hin as [Hin|Hin]; [apply in_flat_map; exists j; split; [exact Hin|rewrite Ej; left; reflexivity]|].
      apply in_map_iff in Hin. destruct Hin as [[c p] [E Hl]]. cbn in E. subst c. exfalso.
      destruct (grow_one nodes links links_lt j Hj) as [a' [Ea [E1 _]]]. assert (a' = a) by congruence. subst a'.
      pose proof (proj1 (proj2 facts) j p Hl) as [Hlt [Hinc _]].
      destruct (nth_error nodes p) as [x|] eqn:Ex; [|apply nth_error_None in Ex; lia]. destruct (nth_error nodes j) as [y|] eqn:Ey; [|apply nth_error_None in Ey; lia].
      assert (Sx : set_at nodes p = rn_set x) by (unfold set_at; rewrite Ex; reflexivity). assert (Sy : set_at nodes j = rn_set y) by (unfold set_at; rewrite Ey; reflexivity).
      assert (Hback : included (rn_set x) (rn_set y)). { rewrite <- Sy, <- E1. apply Hall; [apply in_nodes; exists p; split; [lia|exact Ex]|]. rewrite E1, <- Sx. exact Hinc. }
      rewrite Sx, Sy in Hinc.
      pose proof (distinct_perm input nodes (Permutation_sym (sort_desc_perm input)) Hdist p j x y Ex Ey Hback Hinc). lia.
  Qed.
End Final.

Lemma all_patterns_in index pairs x : In x (all_patterns index pairs) ->
  index <= rs_trace_index (fst x) < index + length pairs /\
  exists subs trace, nth_error pairs (rs_trace_index (fst x) - index) = Some (subs, trace) /\ snd x = piece trace (rs_first_pos (fst x)) (rs_length (fst x)).
Proof.
  revert index. induction pairs as [|[subs trace] pairs IH]; intros index H; [destruct H|]. cbn [all_patterns] in H. apply in_app_or in H. destruct H as [H|H].
  - apply in_map_iff in H. destruct H as [s [<- Hs]]. cbn [fst snd rs_trace_index rs_first_pos rs_length length]. split; [lia|]. exists subs, trace. rewrite Nat.sub_diag. split; reflexivity.
  - destruct (IH (S index) H) as [H1 [subs' [trace' [H2 H3]]]]. cbn [length]. split; [lia|]. exists subs', trace'. split; [|exact H3].
    replace (rs_trace_index (fst x) - index) with (S (rs_trace_index (fst x) - S index)) by lia. exact H2.
Qed.

Lemma pattern_classes traces subs x : In x (all_patterns 0 (combine subs traces)) ->
  extract_set_events traces (fst x) = Ok (sorted_set (snd x)) /\ snd x = classes traces (fst x).
Proof.
  intros H. apply all_patterns_in in H. destruct H as [_ [s [trace [H1 H2]]]]. rewrite Nat.sub_0_r in H1.
  assert (H : nth_error traces (rs_trace_index (fst x)) = Some trace).
  { revert H1. generalize (rs_trace_index (fst x)). clear. revert traces. induction subs as [|a subs IH]; intros [|t traces] k Hk; try (destruct k; discriminate).
    destruct k as [|k]; [injection Hk as _ <-; reflexivity|]. exact (IH traces k Hk). }
  unfold extract_set_events, classes. rewrite H, H2. split; [reflexivity|]. rewrite (nth_error_nth _ _ [] H). reflexivity.
Qed.

Lemma sorted_set_NoDup l : NoDup (sorted_set l).
Proof.
  pose proof (sorted_set_sorted l) as H. induction H as [|x l' _ IH HF]; [constructor|]. constructor; [|exact IH].
  intros Hx. rewrite Forall_forall in HF. specialize (HF x Hx). lia.
Qed.

Lemma discovered_proof {D} (make : repeat_set -> D) traces subs :
  let rsets := create_repeat_sets traces subs in
  exists F, do_build_repeat_set_tree make traces rsets = Ok F /\
    (exists perm, Permutation perm rsets /\ Forall2 (fun a r => an_data a = make r /\ forall c, In c (an_set a) <-> In c (classes traces r)) (flat_map nodes_of F) perm) /\
    (forall a b, In a (flat_map nodes_of F) -> child_of b a -> included (an_set b) (an_set a) /\ ~ included (an_set a) (an_set b)) /\
    (forall a, In a (flat_map nodes_of F) ->
       (In a F <-> forall r, In r rsets -> included (an_set a) (classes traces r) -> included (classes traces r) (an_set a))).
Proof.
  cbv zeta. destruct (repeat_sets_distinct_proof traces subs) as [l [E [Hl Hd]]]. rewrite E.
  set (input := map (fun x => mkRaw (make (fst x)) (sorted_set (snd x))) l).
  assert (Em : mapM (fun r => bind (extract_set_events traces r) (fun events => Ok (mkRaw (make r) events))) (map fst l) = Ok input).
  { unfold input. clear E Hd. induction l as [|x l IH]; [reflexivity|]. cbn [map mapM].
    rewrite (proj1 (pattern_classes traces subs x (Hl x (or_introl eq_refl)))). cbn [bind]. rewrite IH by (intros y Hy; apply Hl; right; exact Hy). reflexivity. }
  exists (build_repeat_set_tree input). unfold do_build_repeat_set_tree. rewrite Em. split; [reflexivity|].
  assert (Hn : Forall (fun r => NoDup (rn_set r)) input).
  { apply Forall_forall. intros r Hr. apply in_map_iff in Hr. destruct Hr as [x [<- _]]. apply sorted_set_NoDup. }
  assert (Hdist : forall i j x y, nth_error input i = Some x -> nth_error input j = Some y -> included (rn_set x) (rn_set y) -> included (rn_set y) (rn_set x) -> i = j).
  { intros i j x y Hi Hj H1 H2. destruct (Nat.eq_dec i j) as [|Hne]; [assumption|exfalso]. unfold input in Hi, Hj. rewrite nth_error_map in Hi, Hj.
    destruct (nth_error l i) as [x'|] eqn:Ei; [|discriminate]. destruct (nth_error l j) as [y'|] eqn:Ej; [|discriminate]. injection Hi as <-. injection Hj as <-. cbn in H1, H2.
    apply (Hd i j x' y' Hne Ei Ej). intros c. rewrite <- (in_sorted_set c (snd x')), <- (in_sorted_set c (snd y')). split; [apply H1|apply H2]. }
  assert (Hcls : forall x, In x l -> forall c, In c (sorted_set (snd x)) <-> In c (classes traces (fst x))).
  { intros x Hx c. rewrite in_sorted_set, (proj2 (pattern_classes traces subs x (Hl x Hx))). reflexivity. }
  split; [|split].
  - pose proof (tree_sources_proof input) as HP. unfold input in HP at 2. rewrite map_map in HP. cbn [rn_data rn_set] in HP.
    destruct (Permutation_map_inv _ _ HP) as [perm [E1 P1]].
    exists (map fst perm). split; [apply Permutation_map; symmetry; exact P1|].
    assert (Hp : forall x, In x perm -> In x l) by (intros x Hx; apply (Permutation_in _ (Permutation_sym P1)); exact Hx).
    clear -E1 Hp Hcls. revert perm E1 Hp. induction (flat_map nodes_of (build_repeat_set_tree input)) as [|a L IH]; intros [|x perm] E1 Hp; try discriminate; [constructor|].
    cbn [map] in E1. injection E1 as E1 E2 E3. cbn [map]. constructor.
    + split; [exact E1|]. intros c. rewrite E2. apply Hcls. apply Hp. left; reflexivity.
    + apply IH; [exact E3|]. intros y Hy. apply Hp. right; exact Hy.
  - intros a b Ha Hb. destruct (child_link input a b Ha Hb) as [p [c [Hlk [Ea Eb]]]]. split; [apply (tree_children_proof input Hn a b Ha Hb)|].
    intros Hback. pose proof (proj1 (tree_children_proof input Hn a b Ha Hb)) as Hinc. rewrite Ea, Eb in Hinc, Hback.
    pose proof (links_lt input c p Hlk) as Hlt.
    assert (Hpc : p = c); [|lia].
    destruct (nth_error (sort_desc input) p) as [x|] eqn:Ex; [|apply nth_error_None in Ex; lia]. destruct (nth_error (sort_desc input) c) as [y|] eqn:Ey; [|apply nth_error_None in Ey; lia].
    unfold set_at in Hinc, Hback. rewrite Ex, Ey in Hinc, Hback.
    exact (distinct_perm _ _ (Permutation_sym (sort_desc_perm input)) Hdist p c x y Ex Ey Hback Hinc).
  - intros a Ha. rewrite (tree_roots_proof input Hn Hdist a Ha). split; intros H r Hr Hinc.
    + apply in_map_iff in Hr. destruct Hr as [x [<- Hx]]. intros c Hc. apply (H (mkRaw (make (fst x)) (sorted_set (snd x)))).
      * apply in_map_iff. exists x. split; [reflexivity|exact Hx].
      * intros d Hdd. cbn. apply Hcls; [exact Hx|]. apply Hinc. exact Hdd.
      * cbn. apply Hcls; [exact Hx|exact Hc].
    + apply in_map_iff in Hr. destruct Hr as [x [<- Hx]]. cbn in *. intros c Hc. apply (H (fst x)).
      * apply in_map. exact Hx.
      * intros d Hdd. apply Hcls; [exact Hx|]. apply Hinc. exact Hdd.
      * apply Hcls; [exact Hx|exact Hc].
Qed.
