(** Proofs about the alpha algorithm: the sets which are left are the maximal ones. *)
From Coq Require Import Permutation Sorted Wellfounded.
From Verif Require Import Py PyFacts InfoModel InfoSpec InfoProofs HashModel EqProofs ReplayModel RInfoModel RInfoSpec RInfoProofs AlphaModel AlphaSpec AlphaProofs AlphaProofs2.

Section Result.
  Variable ord : nat -> forall A : Type, list A -> list A.
  Hypothesis O : any_order ord.
  Variable p : aprovider.
  Variable classes : list pystr.
  Let C := fun a b => ap_causal p a b = true.
  Let U := fun a b => ap_unrelated p a b = true.
  Hypothesis CU : forall a b, C a b -> ~ U a b.
  Hypothesis C_classes : forall a b, C a b -> In a classes /\ In b classes.

  Lemma maximize_proof n : forall vec k, sum (weight classes) vec < n -> Forall (good p) vec -> NoDup vec ->
    exists fuel0 r, (forall fuel, fuel0 <= fuel -> maximize as_eqb (set_merger p) ord fuel k vec = Ok r) /\
      Forall (good p) r /\ NoDup r /\
      forall M, good p M -> (forall x, good p x -> within M x -> x = M) -> reach M vec -> In M r.
  Proof.
    induction n as [|n IH]; intros vec k Hn G ND; [lia|].
    assert (Pm := O k aset vec). assert (Pm' : Permutation vec (ord k aset vec)) by (symmetry; exact Pm).
    assert (G' : Forall (good p) (ord k aset vec)) by (eapply Permutation_Forall; eauto).
    assert (ND' : NoDup (ord k aset vec)) by (eapply Permutation_NoDup; eauto).
    destruct (max_round as_eqb (set_merger p) (ord k aset vec)) as [new|] eqn:E.
    - assert (L := round_smaller p classes CU C_classes _ _ G' ND' E). rewrite (sum_perm _ _ _ Pm) in L.
      pose proof (round_proof as_eqb (set_merger p) (good p) (as_eqb_spec p CU) (merger_good p classes C_classes) _ G' ND') as R. rewrite E in R. destruct R as (Gn & NDn & _ & _).
      destruct (IH new (S k)) as (f0 & r & H1 & H2 & H3 & H4); [lia|exact Gn|exact NDn|]. exists (S f0), r. split; [|split; [exact H2|split; [exact H3|]]].
      + intros [|fuel] Hf; [lia|]. cbn [maximize]. rewrite E. apply H1. lia.
      + intros M GM MM R. apply H4; auto. eapply (reach_round p classes CU C_classes M GM MM); [exact G'|exact ND'| |exact E]. eapply reach_perm; eauto.
    - exists 1, vec. split; [|split; [exact G|split; [exact ND|]]].
      + intros [|fuel] Hf; [lia|]. cbn [maximize]. rewrite E. reflexivity.
      + intros M GM MM R. eapply Permutation_in; [exact Pm|]. eapply (reach_end p classes CU C_classes M GM); [exact G'|exact ND'| |exact E]. eapply reach_perm; eauto.
  Qed.

  (** ** Any good set is within a maximal one *)
  Definition one_more (s : bool) (c : pystr) (x : aset) : aset := put s x (bset_insert c (sd s x)).
  Lemma one_more_sd s c x s' d : In d (sd s' (one_more s c x)) <-> if Bool.eqb s' s then d = c \/ In d (sd s x) else In d (sd s' x).
  Proof. unfold one_more. rewrite sd_put. destruct (Bool.eqb s' s); [apply bset_insert_In|reflexivity]. Qed.
  Lemma one_more_tidy s c x : tidy x -> tidy (one_more s c x).
  Proof. intros T s'. unfold one_more. rewrite sd_put. destruct (Bool.eqb s' s); [apply bset_insert_sorted, T|apply T]. Qed.
  Lemma one_more_self s c x : tidy x -> one_more s c x = extend x (one_more s c x).
  Proof.
    intros T. apply aset_ext; [apply one_more_tidy, T|apply extend_tidy|]. intros s' d. rewrite extend_In, one_more_sd. destruct (Bool.eqb s' s) eqn:E; [|tauto].
    apply eqb_prop in E. subst s'. tauto.
  Qed.
  Lemma good_one_more_dec s c x : good p x -> {good p (one_more s c x)} + {~ good p (one_more s c x)}.
  Proof.
    intros G. pose proof (can_extend_spec p x (one_more s c x) (proj1 G) (fun s' => proj1 (good_sd p classes C_classes x s' G))) as H.
    rewrite <- (one_more_self s c x (proj1 G)) in H. destruct (can_extend p x (one_more s c x)); [left|right]; [apply H; reflexivity|]. intros G'. apply H in G'. discriminate.
  Defined.
  Definition extensible (x : aset) : Prop := exists s c, ~ In c (sd s x) /\ good p (one_more s c x).
  Lemma extensible_dec x : good p x -> extensible x \/ ~ extensible x.
  Proof.
    intros G.
    assert (D : forall l, (exists s c, In c l /\ ~ In c (sd s x) /\ good p (one_more s c x)) \/ ~ (exists s c, In c l /\ ~ In c (sd s x) /\ good p (one_more s c x))).
    { induction l as [|c l IH]; [right; intros (s & c & [] & _)|]. destruct IH as [(s & d & H & H')|IH]; [left; exists s, d; split; [right; exact H|exact H']|].
      assert (D1 : forall s, (~ In c (sd s x) /\ good p (one_more s c x)) \/ ~ (~ In c (sd s x) /\ good p (one_more s c x))).
      { intros s. destruct (in_dec str_eq_dec c (sd s x)); [right; tauto|]. destruct (good_one_more_dec s c x G); [left|right]; tauto. }
      destruct (D1 true) as [H|H1]; [left; exists true, c; split; [left; reflexivity|exact H]|]. destruct (D1 false) as [H|H2]; [left; exists false, c; split; [left; reflexivity|exact H]|].
      right. intros (s & d & [<-|Hd] & Hs); [destruct s; tauto|]. apply IH. exists s, d. auto. }
    destruct (D classes) as [(s & c & _ & H)|H]; [left; exists s, c; exact H|right]. intros (s & c & Hc & Hg). apply H. exists s, c. split; [|auto].
    apply (proj2 (proj2 (good_sd p classes C_classes _ s Hg))). apply one_more_sd. rewrite eqb_reflx. auto.
  Qed.
  Lemma not_extensible x : good p x -> ~ extensible x -> forall y, good p y -> within x y -> y = x.
  Proof.
    intros G H y Gy W. apply within_antisym; [apply Gy|apply G| |exact W]. intros s c Hc. destruct (in_dec str_eq_dec c (sd s x)) as [I|I]; [exact I|]. exfalso. apply H. exists s, c. split; [exact I|].
    apply (good_within p _ y); [apply one_more_tidy, G| |exact Gy|].
    - intros s' E. destruct (good_sd p classes C_classes x s' G) as [Hn _]. destruct (sd s' x) as [|d l] eqn:El; [congruence|].
      assert (In d (sd s' (one_more s c x))); [|rewrite E in H0; destruct H0]. apply one_more_sd. destruct (Bool.eqb s' s) eqn:Es; [|rewrite El; left; reflexivity]. apply eqb_prop in Es. subst s'. right. rewrite El. left. reflexivity.
    - intros s' d Hd. apply one_more_sd in Hd. destruct (Bool.eqb s' s) eqn:Es; [|apply W, Hd]. apply eqb_prop in Es. subst s'. destruct Hd as [->|Hd]; [exact Hc|apply W, Hd].
  Qed.
  Lemma one_more_within s c x : within x (one_more s c x).
  Proof. intros s' d Hd. apply one_more_sd. destruct (Bool.eqb s' s) eqn:E; [|exact Hd]. apply eqb_prop in E. subst s'. auto. Qed.
  Lemma maximal_above n : forall x, good p x -> 2 * length classes - size x < n ->
    exists M, good p M /\ within x M /\ forall y, good p y -> within M y -> y = M.
  Proof.
    induction n as [|n IH]; intros x G Hn; [lia|]. destruct (extensible_dec x G) as [(s & c & Hc & Hg)|Hno].
    - assert (W := one_more_within s c x). assert (L : size x < size (one_more s c x)).
      { destruct (Nat.le_gt_cases (size (one_more s c x)) (size x)) as [L|L]; [|exact L]. exfalso. apply Hc. rewrite (within_same_size _ _ (proj1 G) (proj1 Hg) W L). apply one_more_sd. rewrite eqb_reflx. auto. }
      assert (L2 := good_size p classes C_classes _ Hg). destruct (IH (one_more s c x) Hg) as (M & GM & WM & H); [lia|]. exists M. split; [exact GM|]. split; [|exact H]. intros s' d Hd. apply WM, W, Hd.
    - exists x. split; [exact G|]. split; [intros s c Hc; exact Hc|]. apply not_extensible; assumption.
  Qed.
  Lemma maximal_iff x : tidy x -> (maximal C U (as_left x) (as_right x) <-> good p x /\ forall y, good p y -> within x y -> y = x).
  Proof.
    intros T. split.
    - intros [F H]. assert (G : good p x) by (split; assumption). split; [exact G|]. intros y Gy W. destruct (H _ _ (proj2 Gy) (W true) (W false)) as [I1 I2].
      apply within_antisym; [apply Gy|exact T| |exact W]. intros []; assumption.
    - intros [G H]. split; [apply G|]. intros A B F I1 I2.
      assert (Fs : fits C U (bset_of A) (bset_of B)).
      { destruct F as (N1 & N2 & F1 & F2 & F3). split; [|split; [|split; [|split]]].
        - destruct A as [|a A]; [congruence|]. intros E. assert (In a (bset_of (a :: A))) by (apply bset_of_In; left; reflexivity). rewrite E in H0. destruct H0.
        - destruct B as [|a B]; [congruence|]. intros E. assert (In a (bset_of (a :: B))) by (apply bset_of_In; left; reflexivity). rewrite E in H0. destruct H0.
        - intros a b Ha Hb. rewrite bset_of_In in Ha, Hb. apply F1; assumption.
        - intros a b Ha Hb. rewrite bset_of_In in Ha, Hb. apply F2; assumption.
        - intros a b Ha Hb. rewrite bset_of_In in Ha, Hb. apply F3; assumption. }
      assert (E : mkASet (bset_of A) (bset_of B) = x).
      { apply H; [split; [intros []; apply bset_of_sorted|exact Fs]|]. intros [] c Hc; cbn [sd as_left as_right]; apply bset_of_In; auto. }
      rewrite <- E. cbn [as_left as_right]. split; intros c Hc; apply bset_of_In; exact Hc.
  Qed.

  (** ** The initial sets *)
  Hypothesis C_keys : forall a b, C a b -> r_followed (ri_dfg (ap_info p)) a <> None.
  Hypothesis known : forall k a b, C a b -> In a (r_all_event_classes ord k (ap_info p)) /\ In b (r_all_event_classes ord k (ap_info p)).
  Lemma initial_proof : Forall (good p) (create_initial_sets ord p) /\ NoDup (create_initial_sets ord p) /\
    forall x, In x (create_initial_sets ord p) <-> exists a b, x = as_new a b /\ C a b /\ U a a /\ U b b.
  Proof.
    unfold create_initial_sets.
    match goal with |- context [fold_left (hadd as_eqb) ?l []] => set (src := l) end.
    assert (Hs : forall x, In x src <-> exists a b, x = as_new a b /\ C a b /\ U a a /\ U b b).
    { intros x. unfold src. rewrite filter_In, in_flat_map. split.
      - intros [(a & Ha & Hx) _]. apply filter_In in Ha. destruct Ha as [_ Ha]. apply andb_true_iff in Ha. destruct Ha as [_ Ha]. apply in_map_iff in Hx. destruct Hx as (b & <- & Hb).
        apply filter_In in Hb. destruct Hb as [_ Hb]. apply andb_true_iff in Hb. exists a, b. split; [reflexivity|]. split; [apply Hb|]. split; [exact Ha|apply Hb].
      - intros (a & b & -> & Hc & Ha & Hb). split; [|reflexivity]. exists a. split.
        + apply filter_In. split; [apply (known 5 a b Hc)|]. destruct (r_followed (ri_dfg (ap_info p)) a) eqn:E; [exact Ha|destruct (C_keys a b Hc E)].
        + apply in_map, filter_In. split; [apply (known 6 a b Hc)|]. apply andb_true_iff. split; [exact Hc|exact Hb]. }
    assert (Gs : Forall (good p) src).
    { apply Forall_forall. intros x Hx. apply Hs in Hx. destruct Hx as (a & b & -> & Hc & Ha & Hb). split; [intros []; repeat constructor|]. cbn [as_new as_left as_right].
      split; [discriminate|]. split; [discriminate|]. split; [|split]; intros u v [<-|[]] [<-|[]]; assumption. }
    destruct (hadds_proof as_eqb (good p) (as_eqb_spec p CU) src [] (Forall_nil _) (NoDup_nil _) Gs) as (H1 & H2 & H3). split; [exact H1|]. split; [exact H2|].
    intros x. rewrite H3, Hs. cbn [In]. tauto.
  Qed.
  Lemma initial_reach M : good p M -> reach M (create_initial_sets ord p).
  Proof.
    intros G. destruct initial_proof as (_ & _ & I). pose proof G as (T & N1 & N2 & F1 & F2 & F3). split.
    - destruct (as_left M) as [|a l] eqn:El; [congruence|]. destruct (as_right M) as [|b l'] eqn:Er; [congruence|]. exists (as_new a b). split.
      + apply I. exists a, b. split; [reflexivity|]. split; [apply F1; left; reflexivity|]. split; [apply F2; left; reflexivity|apply F3; left; reflexivity].
      + intros [] c [<-|[]]; cbn [sd]; [rewrite El|rewrite Er]; left; reflexivity.
    - intros x s b a Hx W Hb Ha Hn. apply I in Hx. destruct Hx as (u & v & -> & Hc & Hu & Hv). pose proof (W true u (or_introl eq_refl)) as Mu. pose proof (W false v (or_introl eq_refl)) as Mv. cbn [sd] in Mu, Mv.
      apply I. destruct s; cbn [sd as_new as_left as_right In] in Hb, Ha, Hn; destruct Hb as [<-|[]].
      + exists a, v. split; [|split; [apply F1; assumption|split; [apply F2; assumption|exact Hv]]].
        unfold swapped, swap_in. cbn [put sd as_new as_left as_right str_mem existsb]. rewrite str_eqb_refl. cbn [orb filter]. rewrite str_eqb_refl. reflexivity.
      + exists u, a. split; [|split; [apply F1; assumption|split; [exact Hu|apply F3; assumption]]].
        unfold swapped, swap_in. cbn [put sd as_new as_left as_right str_mem existsb]. rewrite str_eqb_refl. cbn [orb filter]. rewrite str_eqb_refl. reflexivity.
  Qed.

  Lemma sets_proof : exists fuel0 r, (forall fuel, fuel0 <= fuel -> maximize_sets ord fuel p (create_initial_sets ord p) = Ok r) /\
    NoDup (filter_out_non_maximal_sets ord r) /\
    forall x, In x (filter_out_non_maximal_sets ord r) <-> tidy x /\ maximal C U (as_left x) (as_right x).
  Proof.
    destruct initial_proof as (G0 & N0 & _).
    destruct (maximize_proof (S (sum (weight classes) (create_initial_sets ord p))) (create_initial_sets ord p) 100) as (f0 & r & H1 & H2 & H3 & H4); [lia|exact G0|exact N0|].
    exists f0, r. split; [exact H1|]. unfold filter_out_non_maximal_sets. split.
    { apply NoDup_filter. eapply Permutation_NoDup; [symmetry; apply (O 7)|exact H3]. }
    pose proof H2 as G. rewrite Forall_forall in G.
    assert (Hmax : forall M, good p M -> (forall y, good p y -> within M y -> y = M) -> In M r) by (intros M GM MM; apply H4; [exact GM|exact MM|apply initial_reach, GM]).
    intros x. rewrite filter_In. split.
    - intros [Hx Hf]. apply (Permutation_in _ (O 7 aset r)) in Hx. assert (Gx := G x Hx). split; [apply Gx|]. apply maximal_iff; [apply Gx|]. split; [exact Gx|].
      destruct (maximal_above (S (2 * length classes - size x)) x Gx) as (M & GM & WM & MM); [lia|]. destruct (aset_eq_dec x M) as [->|Hne]; [exact MM|]. exfalso.
      apply negb_true_iff in Hf. assert (existsb (fun c => negb (as_eqb x c) && is_full_subset x c) r = true); [|congruence]. apply existsb_exists. exists M. split; [apply Hmax; assumption|].
      apply andb_true_iff. split.
      + apply negb_true_iff. destruct (as_eqb x M) eqn:E; [|reflexivity]. apply (as_eqb_spec p CU) in E; auto. contradiction.
      + unfold is_full_subset, is_left_subset, is_right_subset. apply andb_true_iff. rewrite !bset_subset_spec. split; [exact (WM true)|exact (WM false)].
    - intros [T Hm]. apply maximal_iff in Hm; [|exact T]. destruct Hm as [Gx MM]. assert (Hx := Hmax x Gx MM). split; [eapply Permutation_in; [symmetry; apply (O 7)|exact Hx]|].
      apply negb_true_iff. destruct (existsb _ r) eqn:E; [|reflexivity]. exfalso. apply existsb_exists in E. destruct E as (c & Hc & E). apply andb_true_iff in E. destruct E as [E1 E2].
      unfold is_full_subset, is_left_subset, is_right_subset in E2. rewrite andb_true_iff, !bset_subset_spec in E2.
      assert (c = x) by (apply MM; [apply G, Hc|intros []; apply E2]). subst c. apply negb_true_iff in E1. rewrite (proj2 (as_eqb_spec p CU x x Gx Gx) eq_refl) in E1. discriminate.
  Qed.
End Result.
