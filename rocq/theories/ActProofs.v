From Coq Require Import Sorting.Sorted Permutation.
From Verif Require EqProofs.
From Verif Require Import Py PyFacts HashModel PatternModel PatternSpec PatternProofs TreeModel TreeSpec TreeProofs ActModel ActSpec.

Section Groups.
  Context {D : Type}.
  Variable name : D -> pystr.
  Notation node := (anode D).
  Notation split_by_size := (split_by_size name).
  Notation sort_name := (sort_name name).

  Lemma has_event_iff (a : node) h : has_event a h = true <-> In h (an_set a).
  Proof. unfold has_event. apply existsb_N. Qed.
  Lemma covers_iff (a : node) s : covers a s = true <-> included s (an_set a).
  Proof. unfold covers. apply contains_set_iff. Qed.

  Definition leb_name (a b : node) := str_leb (name (an_data a)) (name (an_data b)).

  Lemma insert_name_perm x l : Permutation (insert_name name x l) (x :: l).
  Proof. induction l as [|y l IH]; [reflexivity|]. cbn. destruct (str_leb _ _); [reflexivity|]. rewrite IH. apply perm_swap. Qed.
  Lemma sort_name_perm l : Permutation (sort_name l) l.
  Proof. induction l as [|x l IH]; [reflexivity|]. cbn. rewrite insert_name_perm. constructor. exact IH. Qed.
  Lemma insert_name_sorted x l : StronglySorted (fun a b => leb_name a b = true) l -> StronglySorted (fun a b => leb_name a b = true) (insert_name name x l).
  Proof.
    induction 1 as [|y l H IH F]; cbn; [repeat constructor|]. fold (leb_name x y). destruct (leb_name x y) eqn:E.
    - constructor; [constructor; assumption|]. constructor; [exact E|]. eapply Forall_impl; [|exact F]. intros z Hz. eapply EqProofs.str_leb_trans; eassumption.
    - constructor; [exact IH|]. apply Forall_forall. intros z Hz. apply (Permutation_in z (insert_name_perm x l)) in Hz. destruct Hz as [<-|Hz].
      + destruct (EqProofs.str_leb_total (name (an_data x)) (name (an_data y))) as [H'|H']; [unfold leb_name in E; congruence|exact H'].
      + rewrite Forall_forall in F. apply F. exact Hz.
  Qed.
  Lemma sort_name_sorted l : StronglySorted (fun a b => leb_name a b = true) (sort_name l).
  Proof. induction l; cbn; [constructor|]. apply insert_name_sorted. assumption. Qed.

  Lemma find_insert test x m : StronglySorted (fun a b => leb_name a b = true) m ->
    find test (insert_name name x m) =
      if test x then match find test m with Some a => if leb_name x a then Some x else Some a | None => Some x end else find test m.
  Proof.
    induction 1 as [|y l Hs IH HF]; cbn [insert_name find]; [destruct (test x); reflexivity|]. fold (leb_name x y). destruct (leb_name x y) eqn:E; cbn [find].
    - destruct (test x) eqn:Ex; [|reflexivity]. destruct (test y) eqn:Ey; [rewrite E; reflexivity|].
      destruct (find test l) as [a|] eqn:Ef; [|reflexivity]. apply find_some in Ef. destruct Ef as [Ha _]. rewrite Forall_forall in HF. specialize (HF a Ha).
      assert (leb_name x a = true) as -> by (eapply EqProofs.str_leb_trans; eassumption). reflexivity.
    - destruct (test y) eqn:Ey; [destruct (test x); [rewrite E|]; reflexivity|]. exact IH.
  Qed.

  Lemma find_sort_name test m a : find test (sort_name m) = Some a ->
    exists pre post, m = pre ++ a :: post /\ test a = true /\
      (forall b, In b pre -> test b = true -> leb_name a b = true /\ leb_name b a = false) /\ (forall b, In b post -> test b = true -> leb_name a b = true).
  Proof.
    revert a. induction m as [|x m IH]; intros a; [discriminate|].
    change (sort_name (x :: m)) with (insert_name name x (sort_name m)). rewrite find_insert by apply sort_name_sorted.
    assert (Hall : forall c b, find test (sort_name m) = Some c -> In b m -> test b = true -> leb_name c b = true).
    { clear IH. intros c b Hc Hb Ht. pose proof (sort_name_sorted m) as Hs. apply (Permutation_in b (Permutation_sym (sort_name_perm m))) in Hb.
      induction Hs as [|y l Hs IHs HF]; [destruct Hb|]. cbn in Hc. destruct (test y) eqn:Ey.
      - injection Hc as <-. destruct Hb as [<-|Hb]; [apply EqProofs.str_leb_refl|]. rewrite Forall_forall in HF. apply HF. exact Hb.
      - apply IHs; [exact Hc|]. destruct Hb as [<-|Hb]; [congruence|exact Hb]. }
    destruct (test x) eqn:Ex.
    - destruct (find test (sort_name m)) as [c|] eqn:Ef.
      + destruct (leb_name x c) eqn:El; intros [= <-].
        * exists [], m. split; [reflexivity|]. split; [exact Ex|]. split; [intros b []|]. intros b Hb Ht. eapply EqProofs.str_leb_trans; [exact El|]. apply (Hall c b eq_refl Hb Ht).
        * destruct (IH c eq_refl) as [pre [post [-> [H1 [H2 H3]]]]]. exists (x :: pre), post. split; [reflexivity|]. split; [exact H1|]. split; [|exact H3].
          intros b [<-|Hb] Ht; [|apply H2; assumption]. split; [|exact El]. destruct (EqProofs.str_leb_total (name (an_data x)) (name (an_data c))) as [H'|H']; [unfold leb_name in El; congruence|exact H'].
      + intros [= <-]. exists [], m. split; [reflexivity|]. split; [exact Ex|]. split; [intros b []|]. intros b Hb Ht.
        apply (Permutation_in b (Permutation_sym (sort_name_perm m))) in Hb. pose proof (find_none _ _ Ef b Hb). congruence.
    - intros Hf. destruct (IH a Hf) as [pre [post [-> [H1 [H2 H3]]]]]. exists (x :: pre), post. split; [reflexivity|]. split; [exact H1|]. split; [|exact H3].
      intros b [<-|Hb] Ht; [congruence|]. apply H2; assumption.
  Qed.

  (* ---- sorting by length ---- *)
  Lemma insert_asc_perm (x : node) l : Permutation (insert_asc x l) (x :: l).
  Proof. induction l as [|y l IH]; [reflexivity|]. cbn. destruct (_ <=? _); [reflexivity|]. rewrite IH. apply perm_swap. Qed.
  Lemma sort_asc_perm (l : list node) : Permutation (sort_asc l) l.
  Proof. induction l as [|x l IH]; [reflexivity|]. cbn. rewrite insert_asc_perm. constructor. exact IH. Qed.
  Lemma insert_asc_sorted (x : node) l : StronglySorted (fun a b => an_length a <= an_length b) l -> StronglySorted (fun a b => an_length a <= an_length b) (insert_asc x l).
  Proof.
    induction 1 as [|y l Hs IH HF]; [repeat constructor|]. cbn. destruct (Nat.leb_spec (an_length x) (an_length y)) as [H|H].
    - constructor; [constructor; assumption|]. constructor; [exact H|]. eapply Forall_impl; [|exact HF]. intros a Ha. cbn in *. lia.
    - constructor; [exact IH|]. apply Forall_forall. intros z Hz. apply (Permutation_in z (insert_asc_perm x l)) in Hz. destruct Hz as [<-|Hz]; [lia|]. rewrite Forall_forall in HF. apply HF. exact Hz.
  Qed.
  Lemma sort_asc_sorted (l : list node) : StronglySorted (fun a b => an_length a <= an_length b) (sort_asc l).
  Proof. induction l; cbn; [constructor|]. apply insert_asc_sorted. assumption. Qed.

  Definition of_length k (l : list node) := filter (fun a => an_length a =? k) l.
  Lemma insert_asc_filter k (x : node) m : of_length k (insert_asc x m) = of_length k (x :: m).
  Proof.
    unfold of_length. induction m as [|y m IH]; [reflexivity|]. cbn [insert_asc]. destruct (Nat.leb_spec (an_length x) (an_length y)) as [H|H]; [reflexivity|].
    cbn [filter] in *. rewrite IH. destruct (Nat.eqb_spec (an_length x) k) as [E|E], (Nat.eqb_spec (an_length y) k) as [E'|E']; try reflexivity. lia.
  Qed.
  Lemma sort_asc_filter k (l : list node) : of_length k (sort_asc l) = of_length k l.
  Proof. induction l as [|x l IH]; [reflexivity|]. cbn [sort_asc fold_right]. change (fold_right insert_asc [] l) with (sort_asc l). rewrite insert_asc_filter. unfold of_length in *. cbn [filter]. rewrite IH. reflexivity. Qed.

  Lemma split_sorted_spec : forall (l g : list node) k, (forall a, In a g -> an_length a = k) -> g <> [] ->
    StronglySorted (fun a b => an_length a <= an_length b) l -> (forall a, In a l -> k <= an_length a) ->
    exists ks, split_sorted k g l = map (fun k' => of_length k' (g ++ l)) (k :: ks) /\ StronglySorted lt (k :: ks) /\
      (forall k', In k' ks -> exists a, In a l /\ an_length a = k') /\ (forall a, In a l -> In (an_length a) (k :: ks)).
  Proof.
    assert (Hg : forall k (g : list node), (forall a, In a g -> an_length a = k) -> of_length k g = g /\ forall k', k' <> k -> of_length k' g = []).
    { intros k g H. unfold of_length. split; [|intros k' Hk']; induction g as [|x g IH]; cbn; [reflexivity| |reflexivity|];
        rewrite (H x (or_introl eq_refl)); [rewrite Nat.eqb_refl, IH by (intros a Ha; apply H; right; exact Ha); reflexivity|].
      destruct (Nat.eqb_spec k k') as [->|_]; [congruence|]. apply IH. intros a Ha; apply H; right; exact Ha. }
    induction l as [|x l IH]; intros g k H1 H2 Hs Hk.
    - exists []. cbn [split_sorted map]. rewrite app_nil_r. rewrite (proj1 (Hg k g H1)). split; [reflexivity|]. split; [repeat constructor|]. split; [intros k' []|intros a []].
    - inversion Hs as [|? ? Hs' HF]; subst. cbn [split_sorted]. destruct (Nat.eqb_spec (an_length x) k) as [E|E].
      + destruct (IH (g ++ [x]) k) as [ks [E1 [E2 [E3 E4]]]].
        * intros a Ha. apply in_app_or in Ha. destruct Ha as [Ha|[<-|[]]]; [apply H1; exact Ha|exact E].
        * destruct g; discriminate.
        * exact Hs'.
        * intros a Ha. apply Hk. right; exact Ha.
        * exists ks. rewrite <- app_assoc in E1. cbn [app] in E1. split; [exact E1|]. split; [exact E2|]. split; [intros k' Hk'; destruct (E3 k' Hk') as [a [Ha Ea]]; exists a; split; [right; exact Ha|exact Ea]|].
          intros a [<-|Ha]; [left; symmetry; exact E|apply E4; exact Ha].
      + assert (Hxk : k < an_length x) by (pose proof (Hk x (or_introl eq_refl)); lia). rewrite Forall_forall in HF.
        destruct (IH [x] (an_length x)) as [ks [E1 [E2 [E3 E4]]]].
        * intros a [<-|[]]; reflexivity.
        * discriminate.
        * exact Hs'.
        * exact HF.
        * exists (an_length x :: ks). rewrite E1. split.
          -- assert (Hge : forall k', In k' (an_length x :: ks) -> k < k').
             { intros k' [<-|Hk']; [exact Hxk|]. destruct (E3 k' Hk') as [a [Ha <-]]. specialize (HF a Ha). lia. }
             assert (Hx : of_length k (x :: l) = []).
             { destruct (of_length k (x :: l)) as [|y r] eqn:Ey; [reflexivity|]. assert (Hy : In y (of_length k (x :: l))) by (rewrite Ey; left; reflexivity).
               unfold of_length in Hy. apply filter_In in Hy. destruct Hy as [Hy Hyk]. apply Nat.eqb_eq in Hyk. destruct Hy as [<-|Hy]; [lia|]. specialize (HF y Hy). lia. }
             change (map (fun k' => of_length k' (g ++ x :: l)) (k :: an_length x :: ks)) with (of_length k (g ++ x :: l) :: map (fun k' => of_length k' (g ++ x :: l)) (an_length x :: ks)).
             f_equal.
             ++ unfold of_length in *. rewrite filter_app, Hx, app_nil_r. symmetry. apply (Hg k g H1).
             ++ apply map_ext_in. intros k' Hk'. unfold of_length. rewrite (filter_app _ g (x :: l)). pose proof (proj2 (Hg k g H1) k') as Hn. unfold of_length in Hn. rewrite Hn by (specialize (Hge k' Hk'); lia). reflexivity.
          -- split; [|split].
             ++ constructor; [exact E2|]. apply Forall_forall. intros k' [<-|Hk']; [exact Hxk|]. destruct (E3 k' Hk') as [a [Ha <-]]. specialize (HF a Ha). lia.
             ++ intros k' [<-|Hk']; [exists x; split; [left; reflexivity|reflexivity]|]. destruct (E3 k' Hk') as [a [Ha Ea]]. exists a. split; [right; exact Ha|exact Ea].
             ++ intros a [<-|Ha]; [right; left; reflexivity|]. right. apply E4. exact Ha.
  Qed.

  Lemma split_by_size_spec l : exists ks, split_by_size l = map (fun k => sort_name (of_length k l)) ks /\ StronglySorted lt ks /\
    (forall k, In k ks <-> exists a, In a l /\ an_length a = k).
  Proof.
    unfold ActModel.split_by_size. pose proof (sort_asc_sorted l) as Hs. pose proof (sort_asc_filter) as Hf. specialize (fun k => Hf k l).
    assert (Hin : forall a, In a (sort_asc l) <-> In a l) by (intros a; split; apply Permutation_in; [|symmetry]; apply sort_asc_perm).
    destruct (sort_asc l) as [|x r] eqn:Er.
    - exists []. split; [reflexivity|]. split; [constructor|]. intros k. split; [intros []|]. intros [a [Ha _]]. apply Hin in Ha. destruct Ha.
    - inversion Hs as [|? ? Hs' HF]; subst. rewrite Forall_forall in HF.
      destruct (split_sorted_spec r [x] (an_length x)) as [ks [E1 [E2 [E3 E4]]]]; [intros a [<-|[]]; reflexivity|discriminate|exact Hs'|exact HF|].
      exists (an_length x :: ks). rewrite E1, map_map. split; [|split; [exact E2|]].
      + apply map_ext. intros k. cbn [app]. rewrite Hf. reflexivity.
      + intros k. split.
        * intros [<-|Hk]; [exists x; split; [apply Hin; left; reflexivity|reflexivity]|]. destruct (E3 k Hk) as [a [Ha Ea]]. exists a. split; [apply Hin; right; exact Ha|exact Ea].
        * intros [a [Ha <-]]. apply Hin in Ha. destruct Ha as [<-|Ha]; [left; reflexivity|apply E4; exact Ha].
  Qed.

  Lemma filter_split {A} (f : A -> bool) : forall l pre a post, filter f l = pre ++ a :: post -> exists pre' post', l = pre' ++ a :: post' /\ filter f pre' = pre /\ filter f post' = post.
  Proof.
    induction l as [|x l IH]; intros pre a post H; [destruct pre; discriminate|]. cbn in H. destruct (f x) eqn:Ef.
    - destruct pre as [|y pre]; cbn in H.
      + injection H as -> H. exists [], l. split; [reflexivity|]. split; [reflexivity|exact H].
      + injection H as -> H. destruct (IH pre a post H) as [p' [q' [-> [H1 H2]]]]. exists (y :: p'), q'. split; [reflexivity|]. cbn. rewrite Ef, H1. split; [reflexivity|exact H2].
    - destruct (IH pre a post H) as [p' [q' [-> [H1 H2]]]]. exists (x :: p'), q'. split; [reflexivity|]. cbn. rewrite Ef. split; [exact H1|exact H2].
  Qed.

  Lemma find_in_none test (groups : list (list node)) : find_in test groups = None -> forall a, In a (concat groups) -> test a = false.
  Proof.
    induction groups as [|g r IH]; cbn; [intros _ a []|]. destruct (find test g) as [x|] eqn:E; [discriminate|]. intros H a Ha. apply in_app_or in Ha.
    destruct Ha as [Ha|Ha]; [exact (find_none _ _ E a Ha)|exact (IH H a Ha)].
  Qed.
  Lemma in_groups l a : In a (concat (split_by_size l)) <-> In a l.
  Proof.
    destruct (split_by_size_spec l) as [ks [E [_ Hk]]]. rewrite E, in_concat. split.
    - intros [g [Hg Ha]]. apply in_map_iff in Hg. destruct Hg as [k [<- _]]. apply (Permutation_in a (sort_name_perm _)) in Ha. apply filter_In in Ha. apply Ha.
    - intros Ha. exists (sort_name (of_length (an_length a) l)). split.
      + apply in_map_iff. exists (an_length a). split; [reflexivity|]. apply Hk. exists a. split; [exact Ha|reflexivity].
      + apply (Permutation_in a (Permutation_sym (sort_name_perm _))). apply filter_In. split; [exact Ha|apply Nat.eqb_refl].
  Qed.

  Lemma find_in_some test l a : find_in test (split_by_size l) = Some a ->
    exists pre post, l = pre ++ a :: post /\ test a = true /\
      (forall b, In b pre -> test b = true -> smaller name a b /\ ~ smaller name b a) /\ (forall b, In b post -> test b = true -> smaller name a b).
  Proof.
    destruct (split_by_size_spec l) as [ks [E [Hs Hk]]]. rewrite E. intros Hf.
    assert (G : exists k, In k ks /\ find test (sort_name (of_length k l)) = Some a /\ forall b, In b l -> test b = true -> k <= an_length b).
    { assert (Hall : forall b, In b l -> In (an_length b) ks) by (intros b Hb; apply Hk; exists b; split; [exact Hb|reflexivity]).
      assert (Hgen : forall b, In b l -> test b = true -> In (an_length b) ks) by (intros b Hb _; apply Hall; exact Hb). clear Hall Hk E.
      induction Hs as [|k ks Hs IH HF]; [discriminate|]. cbn [map find_in] in Hf. destruct (find test (sort_name (of_length k l))) as [x|] eqn:Ef.
      - injection Hf as ->. exists k. split; [left; reflexivity|]. split; [exact Ef|]. intros b Hb Ht. specialize (Hgen b Hb Ht). destruct Hgen as [<-|Hin]; [lia|]. rewrite Forall_forall in HF. specialize (HF _ Hin). lia.
      - destruct IH as [k' [H1 [H2 H3]]]; [exact Hf| |exists k'; split; [right; exact H1|split; assumption]].
        intros b Hb Ht. destruct (Hgen b Hb Ht) as [Ek|Hin]; [|exact Hin]. exfalso.
        assert (Hin : In b (sort_name (of_length (an_length b) l))). { apply (Permutation_in b (Permutation_sym (sort_name_perm _))). apply filter_In. split; [exact Hb|apply Nat.eqb_refl]. }
        rewrite <- Ek in Hin. pose proof (find_none _ _ Ef b Hin). congruence. }
    destruct G as [k [_ [Hfk Hmin]]]. apply find_sort_name in Hfk. destruct Hfk as [pre [post [Em [Ht [H1 H2]]]]].
    destruct (filter_split _ _ _ _ _ Em) as [pre' [post' [-> [F1 F2]]]]. exists pre', post'. split; [reflexivity|]. split; [exact Ht|].
    assert (Hka : an_length a = k). { assert (Ha : In a (of_length k (pre' ++ a :: post'))) by (rewrite Em; apply in_or_app; right; left; reflexivity). apply filter_In in Ha. apply Nat.eqb_eq. apply Ha. }
    split.
    - intros b Hb Htb. assert (Hkb : k <= an_length b) by (apply Hmin; [apply in_or_app; left; exact Hb|exact Htb]). unfold smaller. fold (an_length a) (an_length b) (leb_name a b) (leb_name b a).
      destruct (Nat.eq_dec (an_length b) k) as [Ek|Ek].
      + assert (Hin : In b pre) by (rewrite <- F1; apply filter_In; split; [exact Hb|apply Nat.eqb_eq; exact Ek]). destruct (H1 b Hin Htb) as [L1 L2]. split; [right; split; [lia|exact L1]|]. intros [H|[_ H]]; [lia|congruence].
      + split; [left; lia|]. intros [H|[H _]]; lia.
    - intros b Hb Htb. assert (Hkb : k <= an_length b) by (apply Hmin; [apply in_or_app; right; right; exact Hb|exact Htb]). unfold smaller. fold (an_length a) (an_length b) (leb_name a b).
      destruct (Nat.eq_dec (an_length b) k) as [Ek|Ek]; [|left; lia]. right. split; [lia|]. apply H2; [|exact Htb]. rewrite <- F2. apply filter_In. split; [exact Hb|apply Nat.eqb_eq; exact Ek].
  Qed.

  Lemma find_in_stronger (test test' : node -> bool) (groups : list (list node)) a : find_in test groups = Some a -> test' a = true -> (forall b, test' b = true -> test b = true) ->
    find_in test' groups = Some a.
  Proof.
    intros Hf Ha Himp. induction groups as [|g r IH]; [discriminate|]. cbn in *.
    assert (Hfind : forall g : list node, match find test g with Some x => test' x = true -> find test' g = Some x | None => find test' g = None end).
    { induction g0 as [|y g0 IHg]; [reflexivity|]. cbn. destruct (test y) eqn:Ey.
      - intros ->. reflexivity.
      - destruct (test' y) eqn:Ey'; [apply Himp in Ey'; congruence|exact IHg]. }
    specialize (Hfind g). destruct (find test g) as [x|].
    - injection Hf as ->. rewrite (Hfind Ha). reflexivity.
    - rewrite Hfind. apply IH. exact Hf.
  Qed.

  Lemma find_wider_eq c test l : (forall b, In b l -> an_length b < c -> test b = false) -> find_wider c test (split_by_size l) = find_in test (split_by_size l).
  Proof.
    intros H. destruct (split_by_size_spec l) as [ks [E [_ _]]]. rewrite E. clear E. induction ks as [|k ks IH]; [reflexivity|]. cbn [map find_wider find_in].
    destruct (sort_name (of_length k l)) as [|a0 g] eqn:Eg; [exact IH|]. destruct (Nat.ltb_spec (an_length a0) c) as [Hlt|Hge]; [|destruct (find test (a0 :: g)); [reflexivity|exact IH]].
    destruct (find test (a0 :: g)) as [b|] eqn:Ef; [|exact IH]. exfalso. apply find_some in Ef. destruct Ef as [Hb Ht].
    assert (Hall : forall x, In x (a0 :: g) -> In x l /\ an_length x = k). { intros x Hx. rewrite <- Eg in Hx. apply (Permutation_in x (sort_name_perm _)) in Hx. apply filter_In in Hx. rewrite Nat.eqb_eq in Hx. exact Hx. }
    destruct (Hall a0 (or_introl eq_refl)) as [_ K0]. destruct (Hall b Hb) as [K1 K2]. rewrite H in Ht; [discriminate|exact K1|lia].
  Qed.
End Groups.

Section Narrow.
  Context {D : Type}.
  Notation node := (anode D).

  Lemma node_count_eq (a : node) : node_count a = S (list_sum (map node_count (an_children a))).
  Proof. destruct a; reflexivity. Qed.

  (** reached from a queue *)
  Definition reached (s : list N) (q : list node) (b : node) := exists a, In a q /\ included s (an_set a) /\ (b = a \/ chain s b a).

  Lemma narrow_loop_spec s : forall fuel q result, list_sum (map node_count q) < fuel ->
    exists res, narrow_loop fuel s q result = Some res /\ forall b, In b res <-> In b result \/ reached s q b.
  Proof.
    induction fuel as [|fuel IH]; intros q result Hf; [lia|]. destruct q as [|a q]; cbn [narrow_loop].
    - exists result. split; [reflexivity|]. intros b. split; [left; assumption|]. intros [H|[a [[] _]]]. exact H.
    - cbn [map list_sum fold_right] in Hf. fold (list_sum (map node_count q)) in Hf. pose proof (node_count_eq a) as Hc.
      destruct (contains_set (an_set a) s) eqn:Ec.
      + apply contains_set_iff in Ec. destruct (IH (q ++ an_children a) (result ++ [a])) as [res [E H]]; [rewrite map_app, list_sum_app; lia|].
        exists res. split; [exact E|]. intros b. rewrite H, in_app_iff. split.
        * intros [[Hb|[<-|[]]]|[a' [Ha' [Hi Hb]]]]; [left; exact Hb|right; exists a; split; [left; reflexivity|split; [exact Ec|left; reflexivity]]|].
          apply in_app_or in Ha'. destruct Ha' as [Ha'|Ha']; [right; exists a'; split; [right; exact Ha'|split; assumption]|].
          right. exists a. split; [left; reflexivity|]. split; [exact Ec|]. right. destruct Hb as [->|Hb]; [apply chain_child; assumption|]. eapply chain_step; eassumption.
        * intros [Hb|[a' [[<-|Ha'] [Hi Hb]]]]; [left; left; exact Hb| |right; exists a'; split; [apply in_or_app; left; exact Ha'|split; assumption]].
          destruct Hb as [->|Hb]; [left; right; left; reflexivity|]. right. inversion Hb as [? ? Hch Hcov|? a' ? Hch' Hch Hcov]; subst.
          -- exists b. split; [apply in_or_app; right; exact Hch|]. split; [exact Hcov|left; reflexivity].
          -- exists a'. split; [apply in_or_app; right; exact Hch|]. split; [exact Hcov|right; exact Hch'].
      + destruct (IH q result) as [res [E H]]; [rewrite node_count_eq in Hf; lia|]. exists res. split; [exact E|]. intros b. rewrite H. split.
        * intros [Hb|[a' [Ha' Hb]]]; [left; exact Hb|right; exists a'; split; [right; exact Ha'|exact Hb]].
        * intros [Hb|[a' [[<-|Ha'] [Hi Hb]]]]; [left; exact Hb| |right; exists a'; split; [exact Ha'|split; assumption]].
          exfalso. assert (contains_set (an_set a) s = true) by (apply contains_set_iff; exact Hi). congruence.
  Qed.

  Lemma chain_reached s (a b : node) : chain s b a <-> reached s (an_children a) b.
  Proof.
    split.
    - intros H. inversion H as [? ? Hch Hcov|? a' ? Hch' Hch Hcov]; subst.
      + exists b. split; [exact Hch|]. split; [exact Hcov|left; reflexivity].
      + exists a'. split; [exact Hch|]. split; [exact Hcov|right; exact Hch'].
    - intros [a' [H1 [H2 [->|H3]]]]; [apply chain_child; assumption|eapply chain_step; eassumption].
  Qed.

  Lemma narrow_proof s (a : node) : exists r, narrow_activity a s = Some r /\ narrowed s a r.
  Proof.
    unfold narrow_activity. destruct (narrow_loop_spec s (node_count a) (an_children a) []) as [res [E H]]; [rewrite node_count_eq; lia|]. rewrite E.
    assert (Hr : forall b, In b (sort_asc res) <-> chain s b a).
    { intros b. rewrite chain_reached. split.
      - intros Hb. apply (Permutation_in b (sort_asc_perm res)) in Hb. apply H in Hb. destruct Hb as [[]|Hb]; exact Hb.
      - intros Hb. apply (Permutation_in b (Permutation_sym (sort_asc_perm res))). apply H. right; exact Hb. }
    pose proof (sort_asc_sorted res) as Hs. destruct (sort_asc res) as [|x r].
    - exists a. split; [reflexivity|]. left. split; [reflexivity|]. intros b Hb Hi. apply (Hr b). apply chain_child; assumption.
    - exists x. split; [reflexivity|]. right. split; [apply Hr; left; reflexivity|]. intros b Hb. apply Hr in Hb. inversion Hs as [|? ? _ HF]; subst. destruct Hb as [<-|Hb]; [lia|]. rewrite Forall_forall in HF. apply (HF b Hb).
  Qed.

  Lemma chain_below s (a b : node) : chain s b a -> below b a /\ included s (an_set b).
  Proof. induction 1 as [a b H1 H2|a b c _ [IH1 IH2] H1 H2]; split; try assumption; [apply below_child; exact H1|eapply below_step; eassumption]. Qed.

  Lemma narrow_ext s s' (a : node) : (forall x, In x s <-> In x s') -> narrow_activity a s = narrow_activity a s'.
  Proof.
    intros H. assert (Hc : forall b : node, contains_set (an_set b) s = contains_set (an_set b) s').
    { intros b. destruct (contains_set (an_set b) s) eqn:E, (contains_set (an_set b) s') eqn:E'; try reflexivity.
      - apply contains_set_iff in E. assert (contains_set (an_set b) s' = true); [|congruence]. apply contains_set_iff. intros x Hx. apply E, H, Hx.
      - apply contains_set_iff in E'. assert (contains_set (an_set b) s = true); [|congruence]. apply contains_set_iff. intros x Hx. apply E', H, Hx. }
    unfold narrow_activity. assert (Hl : forall fuel (q res : list node), narrow_loop fuel s q res = narrow_loop fuel s' q res).
    { induction fuel as [|fuel IH]; intros q res; [reflexivity|]. cbn. destruct q as [|b q]; [reflexivity|]. rewrite Hc. destruct (contains_set _ s'); apply IH. }
    rewrite Hl. reflexivity.
  Qed.
End Narrow.

Section Main.
  Context {D : Type}.
  Variable name : D -> pystr.
  Notation node := (anode D).
  Variables (activities : list node) (should_narrow : bool) (accept : instance D -> bool).
  Notation groups := (split_by_size name activities).
  Notation extract_loop := (extract_loop name activities should_narrow accept).

  (** from a segment to what is emitted *)
  Definition emit (trace : list N) (x y : instance D) : Prop :=
    in_start y = in_start x /\ in_length y = in_length x /\
    if should_narrow then narrow_activity (in_node x) (piece trace (in_start x) (in_length x)) = Some (in_node y) else in_node y = in_node x.

  Lemma find_in_best s a : find_in (fun b => covers b s) groups = Some a -> best name activities s a.
  Proof.
    intros H. apply find_in_some in H. destruct H as [pre [post [E [H1 [H2 H3]]]]]. exists pre, post. split; [exact E|]. split; [apply covers_iff; exact H1|].
    split; intros b Hb Hi; [apply H2|apply H3]; try assumption; apply covers_iff; exact Hi.
  Qed.
  Lemma find_in_coverable s : find_in (fun b => covers b s) groups = None <-> ~ coverable activities s.
  Proof.
    split.
    - intros H [a [Ha Hi]]. pose proof (find_in_none _ _ H a (proj2 (in_groups name activities a) Ha)) as Hc. assert (covers a s = true) by (apply covers_iff; exact Hi). cbv beta in Hc. congruence.
    - intros H. destruct (find_in _ groups) as [a|] eqn:E; [|reflexivity]. exfalso. apply H. apply find_in_best in E. destruct E as [pre [post [-> [Hi _]]]].
      exists a. split; [apply in_or_app; right; left; reflexivity|exact Hi].
  Qed.
  Lemma best_ext s s' a : (forall x, In x s <-> In x s') -> best name activities s a -> best name activities s' a.
  Proof.
    intros H [pre [post [E [H1 [H2 H3]]]]]. exists pre, post. split; [exact E|]. unfold included in *. split; [intros x Hx; apply H1, H, Hx|].
    split; intros b Hb Hi; [apply H2|apply H3]; try assumption; intros x Hx; apply Hi, H, Hx.
  Qed.
  Lemma coverable_ext (l : list node) s s' : (forall x, In x s <-> In x s') -> coverable l s -> coverable l s'.
  Proof. intros H [a [Ha Hi]]. exists a. split; [exact Ha|]. intros x Hx. apply Hi, H, Hx. Qed.

  Lemma find_in_ext s s' (gs : list (list node)) : (forall x, In x s <-> In x s') -> find_in (fun b => covers b s) gs = find_in (fun b => covers b s') gs.
  Proof.
    intros H. assert (Hc : forall b : node, covers b s = covers b s').
    { intros b. destruct (covers b s) eqn:E, (covers b s') eqn:E'; try reflexivity.
      - apply covers_iff in E. assert (covers b s' = true); [|congruence]. apply covers_iff. intros x Hx. apply E, H, Hx.
      - apply covers_iff in E'. assert (covers b s = true); [|congruence]. apply covers_iff. intros x Hx. apply E', H, Hx. }
    induction gs as [|g r IH]; [reflexivity|]. cbn. rewrite IH. assert (Hf : find (fun b => covers b s) g = find (fun b => covers b s') g).
    { clear IH. induction g as [|x g IHg]; [reflexivity|]. cbn. rewrite Hc, IHg. reflexivity. }
    rewrite Hf. reflexivity.
  Qed.

  Lemma close_ok trace a start stop s found : (forall x, In x s <-> In x (piece trace start (stop - start))) ->
    exists y, emit trace (mkInst a start (stop - start)) y /\ close should_narrow accept a start stop s found = Some (found ++ filter accept [y]).
  Proof.
    intros H. unfold close. destruct should_narrow eqn:En.
    - destruct (narrow_proof s a) as [r [Er _]]. rewrite Er. exists (mkInst r start (stop - start)). split.
      + unfold emit. cbn [in_start in_length in_node]. rewrite En. split; [reflexivity|]. split; [reflexivity|]. rewrite <- (narrow_ext s _ a H). exact Er.
      + cbn [filter]. destruct (accept _); [reflexivity|]. rewrite app_nil_r. reflexivity.
    - exists (mkInst a start (stop - start)). split; [unfold emit; rewrite En; repeat split|]. cbn [filter]. destruct (accept _); [reflexivity|]. rewrite app_nil_r. reflexivity.
  Qed.

  Lemma piece_snoc (trace : list N) s len h : nth_error trace (s + len) = Some h -> piece trace s (len + 1) = piece trace s len ++ [h].
  Proof.
    intros H. apply nth_error_ext. intros k. unfold piece. clear -H. revert s len k H. intros s len.
    intros k H. rewrite <- (firstn_skipn len (skipn s trace)) at 1.
    assert (Hn : nth_error (skipn s trace) len = Some h).
    { rewrite <- H. clear. revert trace. induction s as [|s IH]; intros [|x t]; cbn; try reflexivity; [destruct len; reflexivity|apply IH]. }
    rewrite firstn_skipn. assert (E : firstn (len + 1) (skipn s trace) = firstn len (skipn s trace) ++ [h]); [|rewrite E; reflexivity].
    clear H. revert Hn. generalize (skipn s trace). clear. induction len as [|len IH]; intros [|x t] H; try discriminate; cbn in *; [congruence|]. rewrite (IH t H). reflexivity.
  Qed.

  Definition budget (n : nat) (st : xstate (D := D)) := 2 * (n - x_next st) + (if x_cur st then 1 else 0).

  Lemma loop_spec trace : forall fuel st, x_next st <= length trace -> budget (length trace) st < fuel ->
    match x_cur st with
    | None => exists segs ys, segments name activities trace (x_next st) segs /\ Forall2 (emit trace) segs ys /\
                extract_loop fuel trace st = Some (x_found st ++ filter accept ys)
    | Some (a, start) =>
        start < x_next st -> (forall x, In x (x_set st) <-> In x (piece trace start (x_next st - start))) ->
        find_in (fun b => covers b (x_set st)) groups = Some a ->
        exists segs ys len, segments name activities trace (start + len) segs /\ x_next st - start <= len /\ start + len <= length trace /\
          (start + len < length trace -> ~ coverable activities (piece trace start (len + 1))) /\
          exists a' y, best name activities (piece trace start len) a' /\ emit trace (mkInst a' start len) y /\ Forall2 (emit trace) segs ys /\
            extract_loop fuel trace st = Some (x_found st ++ filter accept (y :: ys))
    end.
  Proof.
    induction fuel as [|fuel IH]; intros st Hn Hb; [lia|]. destruct st as [i cur s found]. unfold budget in Hb. cbn [x_next x_cur x_set x_found] in *.
    cbn [ActModel.extract_loop x_next x_cur x_set x_found]. destruct cur as [[a start]|].
    - intros Hlt Hset Hfind. destruct (nth_error trace i) as [h|] eqn:Eh.
      + assert (Hi : i < length trace) by (apply nth_error_Some; congruence).
        assert (Hpc : piece trace start (S i - start) = piece trace start (i - start) ++ [h]).
        { replace (S i - start) with (i - start + 1) by lia. apply piece_snoc. replace (start + (i - start)) with i by lia. exact Eh. }
        assert (Hset' : forall x, In x (set_add s h) <-> In x (piece trace start (S i - start))).
        { intros x. rewrite Hpc, in_app_iff, <- Hset. cbn. tauto. }
        assert (Himp : forall b : node, covers b (set_add s h) = true -> covers b s = true).
        { intros b Hc. apply covers_iff in Hc. apply covers_iff. intros x Hx. apply Hc. right; exact Hx. }
        destruct (has_event a h) eqn:Ea.
        * apply has_event_iff in Ea. assert (Hf' : find_in (fun b => covers b (set_add s h)) groups = Some a).
          { eapply find_in_stronger; [exact Hfind| |exact Himp]. apply covers_iff. apply find_in_some in Hfind. destruct Hfind as [_ [_ [_ [Hc _]]]]. apply covers_iff in Hc. intros x [<-|Hx]; [exact Ea|apply Hc; exact Hx]. }
          specialize (IH (mkX (S i) (Some (a, start)) (set_add s h) found)). cbn [x_next x_cur x_set x_found] in IH.
          destruct IH as [segs [ys [len [H1 [H2 [H3 [H4 H5]]]]]]]; [lia|unfold budget; cbn; lia|lia|exact Hset'|exact Hf'|].
          exists segs, ys, len. split; [exact H1|]. split; [lia|]. split; [exact H3|]. split; [exact H4|exact H5].
        * rewrite (find_wider_eq name).
          2:{ intros b Hb' Hlen. destruct (covers b (set_add s h)) eqn:Ec; [|reflexivity]. exfalso. apply Himp in Ec. apply find_in_some in Hfind. destruct Hfind as [pre [post [E [_ [F1 F2]]]]].
              rewrite E in Hb'. apply in_app_or in Hb'. unfold an_length in Hlen. destruct Hb' as [Hb'|[<-|Hb']].
              - destruct (F1 b Hb' Ec) as [[H|[H _]] _]; lia.
              - lia.
              - destruct (F2 b Hb' Ec) as [H|[H _]]; lia. }
          destruct (find_in (fun b => covers b (set_add s h)) groups) as [b|] eqn:Eb.
          -- specialize (IH (mkX (S i) (Some (b, start)) (set_add s h) found)). cbn [x_next x_cur x_set x_found] in IH.
             destruct IH as [segs [ys [len [H1 [H2 [H3 [H4 H5]]]]]]]; [lia|unfold budget; cbn; lia|lia|exact Hset'|exact Eb|].
             exists segs, ys, len. split; [exact H1|]. split; [lia|]. split; [exact H3|]. split; [exact H4|exact H5].
          -- destruct (close_ok trace a start i s found Hset) as [y [Hy Ey]]. rewrite Ey.
             specialize (IH (mkX i None [] (found ++ filter accept [y]))). cbn [x_next x_cur x_set x_found] in IH. destruct IH as [segs [ys [H1 [H2 H3]]]]; [lia|unfold budget; cbn; lia|].
             exists segs, ys, (i - start). replace (start + (i - start)) with i by lia. split; [exact H1|]. split; [lia|]. split; [lia|]. split.
             ++ intros _ Hcov. apply find_in_coverable in Eb. apply Eb. eapply coverable_ext; [|exact Hcov]. intros x. rewrite Hset'. replace (S i - start) with (i - start + 1) by lia. tauto.
             ++ exists a, y. split; [eapply best_ext; [exact Hset|apply find_in_best; exact Hfind]|]. split; [exact Hy|]. split; [exact H2|]. rewrite H3, <- app_assoc, <- filter_app. reflexivity.
      + assert (Hi : i = length trace) by (apply nth_error_None in Eh; lia). destruct (close_ok trace a start i s found Hset) as [y [Hy Ey]].
        exists [], [], (i - start). replace (start + (i - start)) with i by lia. split; [apply seg_done; intros j h Hj Hh; assert (j < length trace) by (apply nth_error_Some; congruence); lia|].
        split; [lia|]. split; [lia|]. split; [lia|]. exists a, y. split; [eapply best_ext; [exact Hset|apply find_in_best; exact Hfind]|]. split; [exact Hy|]. split; [constructor|exact Ey].
    - destruct (nth_error trace i) as [h|] eqn:Eh.
      + assert (Hi : i < length trace) by (apply nth_error_Some; congruence).
        change (fun a => has_event a h) with (fun a : node => has_event a h).
        assert (Hh : forall gs : list (list node), find_in (fun a => has_event a h) gs = find_in (fun b => covers b (set_add [] h)) gs).
        { assert (Hc : forall b : node, has_event b h = covers b (set_add [] h)).
          { intros b. destruct (has_event b h) eqn:E, (covers b (set_add [] h)) eqn:E'; try reflexivity.
            - apply has_event_iff in E. assert (covers b (set_add [] h) = true); [|congruence]. apply covers_iff. intros x [<-|[]]. exact E.
            - apply covers_iff in E'. assert (has_event b h = true); [|congruence]. apply has_event_iff. apply E'. left; reflexivity. }
          induction gs as [|g r IHg]; [reflexivity|]. cbn. rewrite IHg. assert (Hf : find (fun a => has_event a h) g = find (fun b => covers b (set_add [] h)) g).
          { clear IHg. induction g as [|x g IHg]; [reflexivity|]. cbn [find]. rewrite Hc, IHg. reflexivity. }
          rewrite Hf. reflexivity. }
        rewrite Hh. destruct (find_in (fun b => covers b (set_add [] h)) groups) as [a|] eqn:Ea.
        * specialize (IH (mkX (S i) (Some (a, i)) (set_add [] h) found)). cbn [x_next x_cur x_set x_found] in IH.
          assert (Hp : piece trace i (S i - i) = [h]). { replace (S i - i) with (0 + 1) by lia. rewrite (piece_snoc trace i 0 h); [reflexivity|]. rewrite Nat.add_0_r. exact Eh. }
          destruct IH as [segs [ys [len [H1 [H2 [H3 [H4 [a' [y [H5 [H6 [H7 H8]]]]]]]]]]]]; [lia|unfold budget; cbn; lia|lia|intros x; rewrite Hp; reflexivity|exact Ea|].
          exists (mkInst a' i len :: segs), (y :: ys). split; [|split; [constructor; assumption|exact H8]].
          apply seg_next; try assumption; [lia|intros j h' Hj; lia|lia].
        * specialize (IH (mkX (S i) None s found)). cbn [x_next x_cur x_set x_found] in IH. destruct IH as [segs [ys [H1 [H2 H3]]]]; [lia|unfold budget; cbn; lia|].
          exists segs, ys. split; [|split; assumption]. assert (Hnc : ~ coverable activities [h]) by (apply find_in_coverable; exact Ea).
          assert (Hone : forall j h', i <= j -> (S i <= j -> nth_error trace j = Some h' -> ~ coverable activities [h']) -> nth_error trace j = Some h' -> ~ coverable activities [h']).
          { intros j h' Hj Hrec Hj'. destruct (Nat.eq_dec i j) as [<-|Hne]; [rewrite Eh in Hj'; injection Hj' as <-; exact Hnc|]. apply Hrec; [lia|exact Hj']. }
          inversion H1 as [? Hall|? s' len a rest G1 G2 G3 G4 G5 G6 G7]; subst.
          -- apply seg_done. intros j h' Hj Hj'. apply (Hone j h' Hj); [|exact Hj']. intros Hsj. apply Hall. exact Hsj.
          -- apply seg_next; try assumption; [lia|]. intros j h' Hj Hj'. apply (Hone j h'); [lia| |exact Hj']. intros Hsj. apply G2. lia.
      + exists [], []. split; [apply seg_done; intros j h Hj Hh; apply nth_error_None in Eh; assert (j < length trace) by (apply nth_error_Some; congruence); lia|]. split; [constructor|]. rewrite app_nil_r. reflexivity.
  Qed.

  Lemma extract_proof trace : exists segs ys, segments name activities trace 0 segs /\ Forall2 (emit trace) segs ys /\
    extract_trace name activities should_narrow accept trace = Some (filter accept ys).
  Proof.
    destruct (loop_spec trace (2 * length trace + 2) (mkX 0 None [] [])) as [segs [ys H]]; [cbn; lia|unfold budget; cbn; lia|]. exists segs, ys. exact H.
  Qed.
End Main.

Section Consequences.
  Context {D : Type}.
  Variable name : D -> pystr.
  Notation node := (anode D).

  Lemma emit_reported narrow trace (x y : instance D) : emit narrow trace x y -> reported narrow trace x y.
  Proof.
    intros [H1 [H2 H3]]. split; [exact H1|]. split; [exact H2|]. destruct narrow; [|exact H3].
    destruct (narrow_proof (piece trace (in_start x) (in_length x)) (in_node x)) as [r [E Hr]]. assert (r = in_node y) by congruence. subst r. exact Hr.
  Qed.

  Lemma extraction_exact_proof (activities : list node) narrow accept trace :
    exists segs ys, segments name activities trace 0 segs /\ Forall2 (reported narrow trace) segs ys /\
      extract_trace name activities narrow accept trace = Some (filter accept ys).
  Proof.
    destruct (extract_proof name activities narrow accept trace) as [segs [ys [H1 [H2 H3]]]]. exists segs, ys. split; [exact H1|]. split; [|exact H3].
    clear -H2. induction H2; constructor; [apply emit_reported; assumption|assumption].
  Qed.

  Lemma best_unique (l : list node) s a b : best name l s a -> best name l s b -> a = b.
  Proof.
    intros [p [q [E [Ha [H1 H2]]]]] [p' [q' [E' [Hb [H1' H2']]]]]. rewrite E in E'.
    assert (G : (p = p' /\ a = b) \/ (In a p' /\ In b q) \/ (In b p /\ In a q')).
    { clear -E'. revert p' E'. induction p as [|x p IH]; intros [|y p'] E'; cbn in E'.
      - injection E' as -> _. left; auto.
      - injection E' as -> ->. right; left. split; [left; reflexivity|apply in_or_app; right; left; reflexivity].
      - injection E' as -> <-. right; right. split; [left; reflexivity|apply in_or_app; right; left; reflexivity].
      - injection E' as -> E'. destruct (IH p' E') as [[-> ->]|[[Hx Hy]|[Hx Hy]]]; [left; auto|right; left; split; [right; exact Hx|exact Hy]|right; right; split; [right; exact Hx|exact Hy]]. }
    destruct G as [[_ G]|[[G1 G2]|[G1 G2]]]; [exact G| |].
    - exfalso. apply (H1' a G1 Ha). apply (H2 b G2 Hb).
    - exfalso. apply (H1 b G1 Hb). apply (H2' a G2 Ha).
  Qed.

  Lemma coverable_mono (l : list node) s s' : (forall x, In x s' -> In x s) -> coverable l s -> coverable l s'.
  Proof. intros H [a [Ha Hi]]. exists a. split; [exact Ha|]. intros x Hx. apply Hi, H, Hx. Qed.
  Lemma best_coverable (l : list node) s a : best name l s a -> coverable l s.
  Proof. intros [p [q [-> [H _]]]]. exists a. split; [apply in_or_app; right; left; reflexivity|exact H]. Qed.
  Lemma piece_incl (trace : list N) s len len' x : len <= len' -> In x (piece trace s len) -> In x (piece trace s len').
  Proof.
    unfold piece. generalize (skipn s trace). intros l. revert len len'. induction l as [|y l IH]; intros len len' Hl; [rewrite !firstn_nil; auto|].
    destruct len as [|len]; [intros []|]. destruct len' as [|len']; [lia|]. cbn. intros [->|H]; [left; reflexivity|right; apply (IH len len'); [lia|exact H]].
  Qed.
  Lemma piece_one (trace : list N) s h : nth_error trace s = Some h -> piece trace s 1 = [h].
  Proof. intros H. change 1 with (0 + 1). rewrite (piece_snoc trace s 0 h); [reflexivity|rewrite Nat.add_0_r; exact H]. Qed.
  Lemma in_piece (trace : list N) s len h : In h (piece trace s len) <-> exists j, s <= j < s + len /\ nth_error trace j = Some h.
  Proof.
    split.
    - intros H. apply In_nth_error in H. destruct H as [k Hk]. unfold piece in Hk.
      assert (Hkl : k < len). { assert (k < length (firstn len (skipn s trace))) by (apply nth_error_Some; congruence). rewrite firstn_length in H. lia. }
      exists (s + k). split; [lia|]. rewrite <- Hk. clear -Hkl. revert trace. induction s as [|s IH]; intros trace.
      + cbn. revert len k Hkl. induction trace as [|x t IH]; intros len k H; [rewrite firstn_nil; reflexivity|]. destruct len; [lia|]. destruct k; [reflexivity|]. cbn. apply IH. lia.
      + destruct trace as [|x t]; [cbn; rewrite firstn_nil; destruct k; reflexivity|]. cbn. apply IH.
    - intros [j [Hj Hh]]. apply (piece_incl trace s (j - s + 1)); [lia|]. rewrite (piece_snoc trace s (j - s) h); [apply in_or_app; right; left; reflexivity|]. replace (s + (j - s)) with j by lia. exact Hh.
  Qed.

  Lemma segments_unique_proof (l : list node) trace : forall i xs ys, segments name l trace i xs -> segments name l trace i ys -> xs = ys.
  Proof.
    intros i xs ys H. revert ys. induction H as [i Hd|i s len a rest H1 H2 H3 H4 H5 H6 H7 IH]; intros ys Hy.
    - inversion Hy as [|? s len a rest G1 G2 G3 G4 G5 G6 G7]; subst; [reflexivity|]. exfalso. destruct (nth_error trace s) as [h|] eqn:Eh; [|apply nth_error_None in Eh; lia].
      apply (Hd s h G1 Eh). apply (coverable_mono l (piece trace s len)); [|apply (best_coverable _ _ _ G5)]. intros x [<-|[]]. apply in_piece. exists s. split; [lia|exact Eh].
    - destruct (nth_error trace s) as [h|] eqn:Eh; [|apply nth_error_None in Eh; lia].
      assert (Hcov : coverable l [h]). { apply (coverable_mono l (piece trace s len)); [|apply (best_coverable _ _ _ H5)]. intros x [<-|[]]. apply in_piece. exists s. split; [lia|exact Eh]. }
      inversion Hy as [? Hd|? s' len' a' rest' G1 G2 G3 G4 G5 G6 G7]; subst; [exfalso; exact (Hd s h H1 Eh Hcov)|].
      destruct (nth_error trace s') as [h'|] eqn:Eh'; [|apply nth_error_None in Eh'; lia].
      assert (Hcov' : coverable l [h']). { apply (coverable_mono l (piece trace s' len')); [|apply (best_coverable _ _ _ G5)]. intros x [<-|[]]. apply in_piece. exists s'. split; [lia|exact Eh']. }
      assert (Es : s' = s). { destruct (lt_eq_lt_dec s s') as [[H|H]|H]; [exfalso; apply (G2 s h); [lia|exact Eh|exact Hcov]|auto|exfalso; apply (H2 s' h'); [lia|exact Eh'|exact Hcov']]. }
      subst s'. assert (El : len' = len).
      { destruct (lt_eq_lt_dec len len') as [[H|H]|H]; [|auto|].
        - exfalso. apply H6; [lia|]. apply (coverable_mono l (piece trace s len')); [|apply (best_coverable _ _ _ G5)]. intros x. apply piece_incl. lia.
        - exfalso. apply G6; [lia|]. apply (coverable_mono l (piece trace s len)); [|apply (best_coverable _ _ _ H5)]. intros x. apply piece_incl. lia. }
      subst len'. rewrite (best_unique _ _ _ _ H5 G5). f_equal. apply IH. exact G7.
  Qed.

  Lemma segments_ordered (l : list node) trace i xs : segments name l trace i xs -> i <= length trace -> ordered i (length trace) xs.
  Proof. induction 1 as [i Hd|i s len a rest H1 H2 H3 H4 H5 H6 H7 IH]; intros Hi; cbn; [exact Hi|]. split; [exact H1|]. split; [exact H3|]. apply IH. exact H4. Qed.

  Lemma ordered_weaken : forall (xs : list (instance D)) lo lo' hi, lo' <= lo -> ordered lo hi xs -> ordered lo' hi xs.
  Proof. destruct xs as [|x xs]; cbn; intros lo lo' hi H H'; [lia|]. destruct H' as [H1 H2]. split; [lia|exact H2]. Qed.
  Lemma ordered_filter (f : instance D -> bool) : forall xs lo hi, ordered lo hi xs -> ordered lo hi (filter f xs).
  Proof.
    induction xs as [|x xs IH]; intros lo hi H; [exact H|]. cbn in H. destruct H as [H1 [H2 H3]]. cbn [filter]. destruct (f x).
    - cbn. split; [exact H1|]. split; [exact H2|]. apply IH. exact H3.
    - apply IH. eapply ordered_weaken; [|exact H3]. unfold in_end. lia.
  Qed.
  Lemma ordered_reported narrow trace : forall (xs ys : list (instance D)) lo hi, Forall2 (reported narrow trace) xs ys -> ordered lo hi xs -> ordered lo hi ys.
  Proof.
    intros xs ys lo hi H. revert lo. induction H as [|x y xs ys [H1 [H2 _]] _ IH]; intros lo Ho; [exact Ho|]. cbn in *. unfold in_end in *. rewrite H1, H2.
    destruct Ho as [A [B C]]. split; [exact A|]. split; [exact B|]. apply IH. exact C.
  Qed.

  Lemma extraction_ordered_proof (activities : list node) narrow accept trace :
    exists l, extract_trace name activities narrow accept trace = Some l /\ ordered 0 (length trace) l.
  Proof.
    destruct (extraction_exact_proof activities narrow accept trace) as [segs [ys [H1 [H2 H3]]]]. exists (filter accept ys). split; [exact H3|].
    apply ordered_filter. eapply ordered_reported; [exact H2|]. apply (segments_ordered activities); [exact H1|lia].
  Qed.

  Lemma ordered_within : forall (l : list (instance D)) lo hi, ordered lo hi l ->
    (forall x, In x l -> lo <= in_start x /\ 0 < in_length x /\ in_end x <= hi) /\
    (forall i j x y, i < j -> nth_error l i = Some x -> nth_error l j = Some y -> in_end x <= in_start y).
  Proof.
    assert (Hle : forall (l : list (instance D)) lo hi, ordered lo hi l -> lo <= hi).
    { induction l as [|x l IH]; intros lo hi H; cbn in H; [exact H|]. destruct H as [A [B C]]. apply IH in C. unfold in_end in C. lia. }
    induction l as [|x l IH]; intros lo hi H; [split; [intros x []|intros i j x y _ Hi; destruct i; discriminate]|]. cbn in H. destruct H as [A [B C]].
    destruct (IH _ _ C) as [I1 I2]. pose proof (Hle _ _ _ C) as Hend. split.
    - intros y [<-|Hy]; [split; [exact A|split; [exact B|exact Hend]]|]. destruct (I1 y Hy) as [J1 [J2 J3]]. unfold in_end in *. split; [lia|split; [exact J2|exact J3]].
    - intros [|i] [|j] y z Hij Hy Hz; cbn in Hy, Hz; try lia.
      + injection Hy as <-. apply nth_error_In in Hz. apply (I1 z Hz).
      + apply (I2 i j y z); [lia|assumption..].
  Qed.

  Lemma Forall2_in_r {A B} (R : A -> B -> Prop) : forall l l', Forall2 R l l' -> forall y, In y l' -> exists x, In x l /\ R x y.
  Proof. induction 1 as [|x y l l' H _ IH]; intros z Hz; [destruct Hz|]. destruct Hz as [<-|Hz]; [exists x; split; [left; reflexivity|exact H]|]. destruct (IH z Hz) as [w [Hw Hr]]. exists w. split; [right; exact Hw|exact Hr]. Qed.
  Lemma Forall2_in_l {A B} (R : A -> B -> Prop) : forall l l', Forall2 R l l' -> forall x, In x l -> exists y, In y l' /\ R x y.
  Proof. induction 1 as [|x y l l' H _ IH]; intros z Hz; [destruct Hz|]. destruct Hz as [<-|Hz]; [exists y; split; [left; reflexivity|exact H]|]. destruct (IH z Hz) as [w [Hw Hr]]. exists w. split; [right; exact Hw|exact Hr]. Qed.

  Lemma segments_nodes (l : list node) trace i xs : segments name l trace i xs -> forall x, In x xs ->
    best name l (piece trace (in_start x) (in_length x)) (in_node x).
  Proof. induction 1 as [i Hd|i s len a rest H1 H2 H3 H4 H5 H6 H7 IH]; intros x Hx; [destruct Hx|]. destruct Hx as [<-|Hx]; [exact H5|apply IH; exact Hx]. Qed.

  Lemma contents_proof (activities : list node) narrow accept trace l : extract_trace name activities narrow accept trace = Some l ->
    forall x, In x l -> included (piece trace (in_start x) (in_length x)) (an_set (in_node x)) /\
      exists a, In a activities /\ included (piece trace (in_start x) (in_length x)) (an_set a) /\
        (in_node x = a \/ narrow = true /\ below (in_node x) a).
  Proof.
    destruct (extraction_exact_proof activities narrow accept trace) as [segs [ys [H1 [H2 H3]]]]. rewrite H3. intros [= <-] x Hx. apply filter_In in Hx. destruct Hx as [Hx _].
    destruct (Forall2_in_r _ _ _ H2 x Hx) as [y [Hy [E1 [E2 E3]]]]. pose proof (segments_nodes _ _ _ _ H1 y Hy) as [p [q [Ep [Hi _]]]]. rewrite E1, E2.
    assert (Ha : In (in_node y) activities) by (rewrite Ep; apply in_or_app; right; left; reflexivity).
    destruct narrow.
    - destruct E3 as [[-> _]|[Hch _]].
      + split; [exact Hi|]. exists (in_node y). split; [exact Ha|]. split; [exact Hi|left; reflexivity].
      + apply chain_below in Hch. destruct Hch as [Hb Hc]. split; [exact Hc|]. exists (in_node y). split; [exact Ha|]. split; [exact Hi|right; split; [reflexivity|exact Hb]].
    - rewrite E3. split; [exact Hi|]. exists (in_node y). split; [exact Ha|]. split; [exact Hi|left; reflexivity].
  Qed.

  Lemma segments_covered (l : list node) trace i xs : segments name l trace i xs -> forall j h, i <= j -> nth_error trace j = Some h -> (covered xs j <-> coverable l [h]).
  Proof.
    induction 1 as [i Hd|i s len a rest H1 H2 H3 H4 H5 H6 H7 IH]; intros j h Hj Hh.
    - split; [intros [x [[] _]]|]. intros Hc. exfalso. exact (Hd j h Hj Hh Hc).
    - destruct (le_lt_dec s j) as [Hsj|Hsj].
      + destruct (le_lt_dec (s + len) j) as [Hlj|Hlj].
        * rewrite <- (IH j h Hlj Hh). split.
          -- intros [x [[<-|Hx] Hr]]; [unfold in_end in Hr; cbn in Hr; lia|]. exists x. split; assumption.
          -- intros [x [Hx Hr]]. exists x. split; [right; exact Hx|exact Hr].
        * split.
          -- intros _. apply (coverable_mono l (piece trace s len)); [|apply (best_coverable _ _ _ H5)]. intros x [<-|[]]. apply in_piece. exists j. split; [lia|exact Hh].
          -- intros _. exists (mkInst a s len). split; [left; reflexivity|]. unfold in_end. cbn. lia.
      + split.
        * intros [x [Hx Hr]]. exfalso. assert (Hs : ordered (s + len) (length trace) rest) by (apply (segments_ordered l); [exact H7|exact H4]).
          destruct Hx as [<-|Hx]; [cbn in Hr; lia|]. destruct (proj1 (ordered_within _ _ _ Hs) x Hx) as [Hlo _]. lia.
        * intros Hc. exfalso. apply (H2 j h); [lia|exact Hh|exact Hc].
  Qed.

  Lemma covered_proof (activities : list node) narrow trace l : extract_trace name activities narrow (fun _ => true) trace = Some l ->
    forall j h, nth_error trace j = Some h -> (covered l j <-> exists a, In a activities /\ In h (an_set a)).
  Proof.
    destruct (extraction_exact_proof activities narrow (fun _ => true) trace) as [segs [ys [H1 [H2 H3]]]]. rewrite H3. intros [= <-] j h Hh.
    assert (Ef : filter (fun _ : instance D => true) ys = ys) by (clear; induction ys as [|y ys IH]; cbn; [reflexivity|rewrite IH; reflexivity]). rewrite Ef.
    assert (Hc : covered ys j <-> covered segs j).
    { split; intros [x [Hx Hr]].
      - destruct (Forall2_in_r _ _ _ H2 x Hx) as [y [Hy [E1 [E2 _]]]]. exists y. split; [exact Hy|]. unfold in_end in *. rewrite <- E1, <- E2. exact Hr.
      - destruct (Forall2_in_l _ _ _ H2 x Hx) as [y [Hy [E1 [E2 _]]]]. exists y. split; [exact Hy|]. unfold in_end in *. rewrite E1, E2. exact Hr. }
    rewrite Hc, (segments_covered _ _ _ _ H1 j h ltac:(lia) Hh). split; intros [a [Ha Hi]]; exists a; (split; [exact Ha|]); [apply Hi; left; reflexivity|intros x [<-|[]]; exact Hi].
  Qed.

  Lemma below_included (a b : node) : inclusion_tree a -> below b a -> included (an_set b) (an_set a).
  Proof.
    intros Ht Hb. revert Ht. induction Hb as [a b Hc|a b c _ IH Hc]; intros Ht.
    - apply (Ht a b); [left; reflexivity|exact Hc].
    - intros x Hx. apply (Ht a b (or_introl eq_refl) Hc). apply IH; [|exact Hx]. intros d e Hd He. apply (Ht d e); [|exact He]. right.
      destruct Hd as [->|Hd]; [apply below_child; exact Hc|eapply below_step; eassumption].
  Qed.
  Lemma below_chain s (a b : node) : inclusion_tree a -> below b a -> included s (an_set b) -> chain s b a.
  Proof.
    intros Ht Hb Hs. revert Ht. induction Hb as [a b Hc|a b c Hb IH Hc]; intros Ht; [apply chain_child; assumption|].
    assert (Ht' : inclusion_tree b). { intros d e Hd He. apply (Ht d e); [|exact He]. right. destruct Hd as [->|Hd]; [apply below_child; exact Hc|eapply below_step; eassumption]. }
    eapply chain_step; [apply IH; assumption|exact Hc|]. intros x Hx. apply (below_included b c Ht' Hb). apply Hs. exact Hx.
  Qed.

  Lemma narrow_tree_proof s (a : node) : inclusion_tree a -> included s (an_set a) ->
    exists r, narrow_activity a s = Some r /\ (r = a \/ below r a) /\ included s (an_set r) /\
      (forall b, below b a -> included s (an_set b) -> length (an_set r) <= length (an_set b)) /\
      (r = a -> forall b, below b a -> ~ included s (an_set b)).
  Proof.
    intros Ht Hs. destruct (narrow_proof s a) as [r [E Hr]]. exists r. split; [exact E|]. destruct Hr as [[-> Hn]|[Hc Hm]].
    - assert (Hno : forall b, below b a -> ~ included s (an_set b)).
      { intros b Hb Hi. apply (below_chain s a b Ht Hb) in Hi. inversion Hi as [? ? K1 K2|? b' ? K0 K1 K2]; subst; [exact (Hn b K1 K2)|exact (Hn b' K1 K2)]. }
      split; [left; reflexivity|]. split; [exact Hs|]. split; [intros b Hb Hi; exfalso; exact (Hno b Hb Hi)|intros _; exact Hno].
    - pose proof (chain_below s a r Hc) as [Hb Hi]. split; [right; exact Hb|]. split; [exact Hi|]. split.
      + intros b Hbb Hbi. apply Hm. apply below_chain; assumption.
      + intros Era. subst r. exfalso.
        assert (Hsz : forall x y : node, below y x -> node_count y < node_count x).
        { clear. assert (Hch : forall x y : node, child_of y x -> node_count y < node_count x).
          { intros x y H. rewrite (node_count_eq x). unfold child_of in H. induction (an_children x) as [|z l IH]; [destruct H|]. cbn. destruct H as [->|H]; [lia|]. specialize (IH H). unfold list_sum in IH. lia. }
          intros x y H. induction H as [a b Hc|a b c _ IH Hc]; [apply Hch; exact Hc|]. specialize (Hch _ _ Hc). lia. }
        specialize (Hsz a a Hb). lia.
  Qed.

  Lemma log_total_proof (activities : list node) narrow accept : forall traces, exists r, extract_log name activities narrow accept traces = Some r /\
    Forall2 (fun t l => extract_trace name activities narrow accept t = Some l) traces r.
  Proof.
    induction traces as [|t traces [r [E H]]]; [exists []; split; [reflexivity|constructor]|]. destruct (extraction_ordered_proof activities narrow accept t) as [l [El _]].
    exists (l :: r). cbn [extract_log]. rewrite El, E. split; [reflexivity|]. constructor; assumption.
  Qed.
End Consequences.
