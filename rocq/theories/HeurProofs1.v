(** Proofs about the heuristic miner: the groups. *)
From Coq Require Import Permutation Sorted QArith.
From Verif Require Import Py PyFacts InfoModel InfoSpec InfoProofs HashModel EqProofs ReplayModel RInfoModel RInfoSpec RInfoProofs AlphaModel AlphaSpec AlphaProofs AlphaProofs2 HeurModel HeurSpec.
Open Scope nat_scope.

Section Groups.
  Variable rel : pystr -> pystr -> bool.
  Hypothesis rel_sym : forall a b, rel a b = rel b a.
  Variable fs : list pystr.
  Definition clique (x : list pystr) : Prop := forall a b, In a x -> In b x -> a <> b -> rel a b = true.
  Definition good_group (x : list pystr) : Prop := bsorted x /\ incl x fs /\ clique x /\ 2 <= length x.
  Let union (x y : list pystr) : list pystr := bset_of (x ++ y).
  Lemma union_In x y c : In c (union x y) <-> In c x \/ In c y.
  Proof. unfold union. rewrite bset_of_In, in_app_iff. reflexivity. Qed.
  Lemma merger_iff x y z : group_merger rel x y = Some z <-> clique (union x y) /\ z = union x y.
  Proof.
    unfold group_merger. fold (union x y).
    assert (H : forallb (fun a => forallb (fun b => str_eqb a b || rel a b) (union x y)) (union x y) = true <-> clique (union x y)).
    { rewrite forallb_forall. unfold clique. split.
      - intros H a b Ha Hb Hne. specialize (H a Ha). rewrite forallb_forall in H. specialize (H b Hb). apply orb_true_iff in H. destruct H as [H|H]; [apply str_eqb_eq in H; contradiction|exact H].
      - intros H a Ha. apply forallb_forall. intros b Hb. destruct (str_eqb a b) eqn:E; [reflexivity|]. cbn [orb]. apply H; auto. intros ->. rewrite str_eqb_refl in E. discriminate. }
    destruct (forallb _ (union x y)); split.
    - intros E. injection E as <-. split; [apply H; reflexivity|reflexivity].
    - intros [_ ->]. reflexivity.
    - discriminate.
    - intros [K _]. apply H in K. discriminate.
  Qed.
  Lemma subset_length x y : bsorted x -> incl x y -> length x <= length y.
  Proof. intros H. apply NoDup_incl_length, bsorted_NoDup, H. Qed.
  Lemma subset_same x y : bsorted x -> bsorted y -> incl x y -> length y <= length x -> x = y.
  Proof. intros Hx Hy I L. apply bsorted_ext; auto. intros c. split; [apply I|]. apply (NoDup_length_incl (bsorted_NoDup _ Hx) L I). Qed.
  Lemma union_good x y : good_group x -> good_group y -> clique (union x y) -> good_group (union x y).
  Proof.
    intros (X1 & X2 & X3 & X4) (Y1 & Y2 & Y3 & Y4) C. split; [apply bset_of_sorted|]. split; [intros c Hc; apply union_In in Hc; destruct Hc; auto|]. split; [exact C|].
    assert (length x <= length (union x y)); [|lia]. apply subset_length; [exact X1|]. intros c Hc. apply union_In. auto.
  Qed.
  Lemma merger_good x y z : good_group x -> good_group y -> group_merger rel x y = Some z -> good_group z.
  Proof. intros X Y H. apply merger_iff in H. destruct H as [C ->]. apply union_good; assumption. Qed.
  Lemma group_eqb_spec x y : good_group x -> good_group y -> (group_eqb x y = true <-> x = y).
  Proof. intros _ _. unfold group_eqb. destruct (list_eq_dec str_eq_dec x y); intuition congruence. Qed.
  Let geq_dec (x y : list pystr) : {x = y} + {x <> y} := list_eq_dec str_eq_dec x y.

  (** ** Rounds end *)
  Let K := length fs.
  Let N := length (pow (bset_of fs)).
  Definition gweight (x : list pystr) : nat := (S N) ^ (K - length x).
  Lemma good_in_pow x : good_group x -> In x (pow (bset_of fs)).
  Proof. intros (X1 & X2 & _). apply pow_In; [apply bset_of_sorted|exact X1|]. intros c Hc. apply bset_of_In, X2, Hc. Qed.
  Definition joined (vec : list (list pystr)) (x : list pystr) : bool :=
    existsb (fun y => if geq_dec y x then false else match group_merger rel x y, group_merger rel y x with None, None => false | _, _ => true end) vec.
  Lemma joined_spec vec x : joined vec x = true <-> exists y, In y vec /\ y <> x /\ (group_merger rel x y <> None \/ group_merger rel y x <> None).
  Proof.
    unfold joined. rewrite existsb_exists. split; intros (y & Hy & H); exists y; (split; [exact Hy|]).
    - destruct (geq_dec y x); [discriminate|]. split; [assumption|]. destruct (group_merger rel x y), (group_merger rel y x); try discriminate; (left; discriminate) || (right; discriminate).
    - destruct H as [H1 H2]. destruct (geq_dec y x); [contradiction|]. destruct (group_merger rel x y), (group_merger rel y x); try reflexivity. destruct H2; congruence.
  Qed.
  Lemma shortest (l : list (list pystr)) : l <> [] -> exists x, In x l /\ forall y, In y l -> length x <= length y.
  Proof.
    induction l as [|x l IH]; [congruence|]. intros _. destruct l as [|y l].
    - exists x. split; [left; reflexivity|]. intros y [<-|[]]. lia.
    - destruct IH as (z & Hz & H); [discriminate|]. destruct (Nat.le_gt_cases (length x) (length z)) as [L|L].
      + exists x. split; [left; reflexivity|]. intros u [<-|Hu]; [lia|]. apply H in Hu. lia.
      + exists z. split; [right; exact Hz|]. intros u [<-|Hu]; [lia|]. apply H, Hu.
  Qed.
  Lemma merge_grows x y z : good_group x -> good_group y -> x <> y -> group_merger rel x y = Some z -> length x < length z \/ length y < length z.
  Proof.
    intros Gx Gy Hne H. apply merger_iff in H. destruct H as [_ ->].
    assert (Wx : incl x (union x y)) by (intros c Hc; apply union_In; auto). assert (Wy : incl y (union x y)) by (intros c Hc; apply union_In; auto).
    destruct (Nat.le_gt_cases (length (union x y)) (length x)) as [L|L]; [|auto]. destruct (Nat.le_gt_cases (length (union x y)) (length y)) as [L'|L']; [|auto]. exfalso. apply Hne.
    pose proof (subset_same _ _ (proj1 Gx) (bset_of_sorted _) Wx L) as E1. pose proof (subset_same _ _ (proj1 Gy) (bset_of_sorted _) Wy L') as E2. fold (union x y) in E1, E2. congruence.
  Qed.
  Lemma good_length x : good_group x -> length x <= K.
  Proof. intros (X1 & X2 & _). apply subset_length; assumption. Qed.
  Lemma ground_smaller vec new : Forall good_group vec -> NoDup vec -> max_round group_eqb (group_merger rel) vec = Some new -> sum gweight new < sum gweight vec.
  Proof.
    intros G ND E. pose proof (round_proof group_eqb (group_merger rel) good_group group_eqb_spec merger_good vec G ND) as R. rewrite E in R.
    destruct R as (Gn & NDn & (x0 & y0 & z0 & Hx0 & Hy0 & Hne0 & E0) & Hin). rewrite Forall_forall in G, Gn.
    destruct (shortest (filter (joined vec) vec)) as (m & Hm & Hmin).
    { intros F. assert (In x0 (filter (joined vec) vec)); [|rewrite F in H; destruct H]. apply filter_In. split; [exact Hx0|]. apply joined_spec. exists y0. split; [exact Hy0|]. split; [congruence|]. left. congruence. }
    rewrite (sum_filter gweight (joined vec) vec), (sum_filter gweight (fun z => if in_dec geq_dec z (filter (fun x => negb (joined vec x)) vec) then false else true) new).
    assert (L1 : sum gweight (filter (fun z => negb (if in_dec geq_dec z (filter (fun x => negb (joined vec x)) vec) then false else true)) new) <= sum gweight (filter (fun x => negb (joined vec x)) vec)).
    { apply sum_incl; [apply NoDup_filter, NDn|]. intros z Hz. apply filter_In in Hz. destruct Hz as [_ Hz]. destruct (in_dec geq_dec z _); [assumption|discriminate]. }
    assert (L2 : gweight m <= sum gweight (filter (joined vec) vec)) by (apply sum_In, Hm).
    assert (L3 : sum gweight (filter (fun z => if in_dec geq_dec z (filter (fun x => negb (joined vec x)) vec) then false else true) new) < gweight m).
    { set (l := filter _ new).
      assert (Hl : forall z, In z l -> length m < length z /\ length z <= K).
      { intros z Hz. apply filter_In in Hz. destruct Hz as [Hz Hk]. destruct (in_dec geq_dec z _) as [|Hk']; [discriminate|]. split; [|apply good_length, Gn, Hz].
        apply Hin in Hz. destruct Hz as [(x & y & Hx & Hy & Hne & Em)|[Hz Hno]].
        - assert (length m <= length x) by (apply Hmin, filter_In; split; [exact Hx|]; apply joined_spec; exists y; split; [exact Hy|split; [congruence|left; congruence]]).
          assert (length m <= length y) by (apply Hmin, filter_In; split; [exact Hy|]; apply joined_spec; exists x; split; [exact Hx|split; [congruence|right; congruence]]).
          destruct (merge_grows x y z (G x Hx) (G y Hy) Hne Em); lia.
        - exfalso. apply Hk'. apply filter_In. split; [exact Hz|]. destruct (joined vec z) eqn:J; [|reflexivity]. apply joined_spec in J. destruct J as (y & Hy & Hne & D).
          destruct (Hno y Hy Hne). destruct D; contradiction. }
      destruct l as [|z l'] eqn:El; [cbn; unfold gweight; apply Nat.neq_0_lt_0, Nat.pow_nonzero; discriminate|]. rewrite <- El in *.
      assert (Lm : length m < K) by (assert (In z l) by (rewrite El; left; reflexivity); apply Hl in H; lia).
      assert (B : sum gweight l <= length l * S N ^ (K - length m - 1)).
      { apply sum_bound. intros u Hu. apply Hl in Hu. unfold gweight. apply Nat.pow_le_mono_r; [discriminate|lia]. }
      assert (Ln : length l <= N). { apply NoDup_incl_length; [apply NoDup_filter, NDn|]. intros u Hu. apply good_in_pow, Gn. apply filter_In in Hu. apply Hu. }
      assert (Ew : gweight m = S N * S N ^ (K - length m - 1)). { unfold gweight. rewrite <- Nat.pow_succ_r'. f_equal. lia. }
      assert (0 < S N ^ (K - length m - 1)) by (apply Nat.neq_0_lt_0, Nat.pow_nonzero; discriminate).
      rewrite Ew. nia. }
    lia.
  Qed.

  (** ** What is covered stays covered *)
  Definition covered (M : list pystr) (vec : list (list pystr)) : Prop := forall c, In c M -> exists x, In x vec /\ incl x M /\ In c x.
  Definition top (M : list pystr) : Prop := good_group M /\ forall y, good_group y -> incl M y -> y = M.
  Lemma within_merges M x y : good_group M -> incl x M -> incl y M -> group_merger rel x y = Some (union x y).
  Proof.
    intros (_ & _ & C & _) Hx Hy. apply merger_iff. split; [|reflexivity]. intros a b Ha Hb. apply union_In in Ha, Hb. apply C; [destruct Ha; auto|destruct Hb; auto].
  Qed.
  Lemma only_one M vec x : good_group M -> Forall good_group vec -> covered M vec -> In x vec -> incl x M -> (forall y, In y vec -> incl y M -> y = x) -> x = M.
  Proof.
    intros GM G Cv Hx Hi Hone. rewrite Forall_forall in G. apply bsorted_ext; [apply (G x Hx)|apply GM|]. intros c. split; [apply Hi|]. intros Hc. destruct (Cv c Hc) as (y & Hy & Iy & Hcy). rewrite (Hone y Hy Iy) in Hcy. exact Hcy.
  Qed.
  Lemma round_covered M vec new : top M -> Forall good_group vec -> NoDup vec -> covered M vec -> max_round group_eqb (group_merger rel) vec = Some new -> covered M new.
  Proof.
    intros [GM MM] G ND Cv E. pose proof (round_proof group_eqb (group_merger rel) good_group group_eqb_spec merger_good vec G ND) as R. rewrite E in R.
    destruct R as (_ & _ & _ & Hin). intros c Hc. destruct (Cv c Hc) as (x & Hx & Ix & Hcx).
    destruct (existsb (fun y => bset_subset y M && if geq_dec y x then false else true) vec) eqn:Ey.
    - apply existsb_exists in Ey. destruct Ey as (y & Hy & Ey). apply andb_true_iff in Ey. destruct Ey as [Iy Hne]. apply bset_subset_spec in Iy. destruct (geq_dec y x) as [|Hne']; [discriminate|].
      exists (union x y). split; [apply Hin; left; exists x, y; split; [exact Hx|]; split; [exact Hy|]; split; [congruence|]; apply (within_merges M); assumption|].
      split; [intros d Hd; apply union_In in Hd; destruct Hd; auto|]. apply union_In. auto.
    - assert (Hone : forall y, In y vec -> incl y M -> y = x).
      { intros y Hy Iy. destruct (geq_dec y x) as [|Hne]; [assumption|]. exfalso. assert (existsb (fun y => bset_subset y M && if geq_dec y x then false else true) vec = true); [|congruence].
        apply existsb_exists. exists y. split; [exact Hy|]. apply andb_true_iff. split; [apply bset_subset_spec; exact Iy|]. destruct (geq_dec y x); [contradiction|reflexivity]. }
      assert (x = M) by (eapply only_one; eauto). subst x. exists M. split; [|split; [intros d Hd; exact Hd|exact Hc]]. apply Hin. right. split; [exact Hx|].
      intros y Hy Hne. rewrite Forall_forall in G.
      assert (Hcl : forall z, incl M z -> incl y z -> clique z -> bsorted z -> incl z fs -> y = M).
      { intros z I1 I2 C S1 I3. assert (good_group z). { split; [exact S1|]. split; [exact I3|]. split; [exact C|]. pose proof (subset_length M z (proj1 GM) I1). destruct GM as (_ & _ & _ & L). lia. }
        rewrite (MM z H I1) in I2. apply Hone; assumption. }
      split.
      + destruct (group_merger rel M y) as [z|] eqn:Em; [|reflexivity]. exfalso. apply Hne. apply merger_iff in Em. destruct Em as [C _].
        apply (Hcl (union M y)); [intros d Hd; apply union_In; auto|intros d Hd; apply union_In; auto|exact C|apply bset_of_sorted|]. intros d Hd. apply union_In in Hd. destruct Hd as [Hd|Hd]; [apply GM, Hd|apply (G y Hy), Hd].
      + destruct (group_merger rel y M) as [z|] eqn:Em; [|reflexivity]. exfalso. apply Hne. apply merger_iff in Em. destruct Em as [C _].
        apply (Hcl (union y M)); [intros d Hd; apply union_In; auto|intros d Hd; apply union_In; auto|exact C|apply bset_of_sorted|]. intros d Hd. apply union_In in Hd. destruct Hd as [Hd|Hd]; [apply (G y Hy), Hd|apply GM, Hd].
  Qed.
  Lemma end_covered M vec : top M -> Forall good_group vec -> covered M vec -> (forall x y, In x vec -> In y vec -> x <> y -> group_merger rel x y = None) -> In M vec.
  Proof.
    intros [GM MM] G Cv Hno. assert (exists c, In c M). { destruct GM as (_ & _ & _ & L). destruct M as [|c M]; [cbn in L; lia|]. exists c. left. reflexivity. }
    destruct H as [c Hc]. destruct (Cv c Hc) as (x & Hx & Ix & _). rewrite <- (only_one M vec x GM G Cv Hx Ix); [exact Hx|].
    intros y Hy Iy. destruct (geq_dec y x) as [|Hne]; [assumption|]. exfalso. specialize (Hno y x Hy Hx Hne). rewrite (within_merges M) in Hno by assumption. discriminate.
  Qed.

  (** ** Each group is within a largest one *)
  Lemma top_above n : forall x, good_group x -> K - length x < n -> exists M, top M /\ incl x M.
  Proof.
    induction n as [|n IH]; intros x G L; [lia|].
    destruct (existsb (fun c => negb (str_mem c x) && forallb (fun d => rel c d) x) fs) eqn:E.
    - apply existsb_exists in E. destruct E as (c & Hc & E). apply andb_true_iff in E. destruct E as [E1 E2]. rewrite negb_true_iff in E1. rewrite forallb_forall in E2.
      assert (Hn : ~ In c x) by (intros H; apply str_mem_In in H; congruence).
      assert (G' : good_group (bset_insert c x)).
      { destruct G as (G1 & G2 & G3 & G4). split; [apply bset_insert_sorted, G1|]. split; [intros d Hd; apply bset_insert_In in Hd; destruct Hd as [->|Hd]; auto|]. split.
        - intros a b Ha Hb Hne. apply bset_insert_In in Ha, Hb. destruct Ha as [->|Ha], Hb as [->|Hb]; [contradiction|apply E2, Hb|rewrite rel_sym; apply E2, Ha|apply G3; assumption].
        - pose proof (subset_length x (bset_insert c x) G1). lapply H; [lia|]. intros d Hd. apply bset_insert_In. auto. }
      assert (L' : length x < length (bset_insert c x)).
      { destruct (Nat.le_gt_cases (length (bset_insert c x)) (length x)) as [H|H]; [|exact H]. exfalso. apply Hn. rewrite (subset_same x (bset_insert c x)); [apply bset_insert_In; auto|apply G|apply G'|intros d Hd; apply bset_insert_In; auto|exact H]. }
      assert (length (bset_insert c x) <= K) by (apply good_length, G').
      destruct (IH _ G') as (M & TM & I); [lia|]. exists M. split; [exact TM|]. intros d Hd. apply I, bset_insert_In. auto.
    - exists x. split; [|intros d Hd; exact Hd]. split; [exact G|]. intros y Gy I. apply bsorted_ext; [apply Gy|apply G|]. intros c. split; [|apply I]. intros Hc.
      destruct (in_dec str_eq_dec c x) as [|Hn]; [assumption|]. exfalso. assert (existsb (fun c => negb (str_mem c x) && forallb (fun d => rel c d) x) fs = true); [|congruence].
      apply existsb_exists. exists c. split; [apply (proj1 (proj2 Gy)), Hc|]. apply andb_true_iff. split.
      + rewrite negb_true_iff. destruct (str_mem c x) eqn:X; [apply str_mem_In in X; contradiction|reflexivity].
      + apply forallb_forall. intros d Hd. apply (proj1 (proj2 (proj2 Gy))); [exact Hc|apply I, Hd|intros ->; contradiction].
  Qed.

  (** ** All rounds *)
  Variable ord : nat -> forall A : Type, list A -> list A.
  Hypothesis O : any_order ord.
  Lemma rounds n : forall vec k, sum gweight vec < n -> Forall good_group vec -> NoDup vec -> (forall M, top M -> covered M vec) ->
    exists fuel0 r, (forall fuel, fuel0 <= fuel -> maximize group_eqb (group_merger rel) ord fuel k vec = Ok r) /\ NoDup r /\ forall x, In x r <-> top x.
  Proof.
    induction n as [|n IH]; intros vec k Hn G ND Cv; [lia|].
    assert (Pm := O k _ vec). assert (Pm' : Permutation vec (ord k _ vec)) by (symmetry; exact Pm).
    assert (G' : Forall good_group (ord k _ vec)) by (eapply Permutation_Forall; eauto).
    assert (ND' : NoDup (ord k _ vec)) by (eapply Permutation_NoDup; eauto).
    assert (Cv' : forall M, top M -> covered M (ord k _ vec)).
    { intros M TM c Hc. destruct (Cv M TM c Hc) as (x & Hx & H). exists x. split; [eapply Permutation_in; eauto|exact H]. }
    pose proof (round_proof group_eqb (group_merger rel) good_group group_eqb_spec merger_good _ G' ND') as R.
    destruct (max_round group_eqb (group_merger rel) (ord k _ vec)) as [new|] eqn:E.
    - assert (L := ground_smaller _ _ G' ND' E). rewrite (sum_perm _ _ _ Pm) in L. destruct R as (Gn & NDn & _ & _).
      destruct (IH new (S k)) as (f1 & r & H1 & H2); [lia|exact Gn|exact NDn|intros M TM; apply (round_covered M (ord k _ vec)); auto|]. exists (S f1), r. split; [|exact H2].
      intros [|fuel] Hf; [lia|]. cbn [maximize]. rewrite E. apply H1. lia.
    - exists 1, vec. split; [|split; [exact ND|]].
      + intros [|fuel] Hf; [lia|]. cbn [maximize]. rewrite E. reflexivity.
      + assert (Hall : forall M, top M -> In M vec) by (intros M TM; eapply Permutation_in; [exact Pm|]; eapply end_covered; eauto).
        intros x. split; [|apply Hall]. intros Hx. rewrite Forall_forall in G. destruct (top_above (S (K - length x)) x (G x Hx)) as (M & TM & I); [lia|].
        destruct (geq_dec x M) as [->|Hne]; [exact TM|]. exfalso. specialize (R x M (Permutation_in _ Pm' Hx) (Permutation_in _ Pm' (Hall M TM)) Hne).
        rewrite (within_merges M) in R; [discriminate|apply TM|exact I|intros c Hc; exact Hc].
  Qed.
  Lemma pairs_of_In l a b : In (a, b) (pairs_of l) -> In a l /\ In b l.
  Proof.
    induction l as [|x l IH]; [intros []|]. cbn [pairs_of]. intros H. apply in_app_iff in H. destruct H as [H|H].
    - apply in_map_iff in H. destruct H as (y & E & Hy). injection E as <- <-. split; [left; reflexivity|right; exact Hy].
    - apply IH in H. destruct H. split; right; assumption.
  Qed.
  Lemma pairs_of_all l a b : In a l -> In b l -> a <> b -> In (a, b) (pairs_of l) \/ In (b, a) (pairs_of l).
  Proof.
    induction l as [|x l IH]; [intros []|]. cbn [pairs_of]. intros Ha Hb Hne. destruct Ha as [->|Ha], Hb as [->|Hb]; [contradiction| | |].
    - left. apply in_app_iff. left. apply in_map. exact Hb.
    - right. apply in_app_iff. left. apply in_map. exact Ha.
    - destruct (IH Ha Hb Hne); [left|right]; apply in_app_iff; right; assumption.
  Qed.
  Lemma two_In a b c : In c (bset_of [a; b]) <-> c = a \/ c = b.
  Proof. rewrite bset_of_In. cbn [In]. intuition congruence. Qed.
  Lemma two_length a b : a <> b -> 2 <= length (bset_of [a; b]).
  Proof. intros Hne. apply (NoDup_incl_length (l := [a; b])); [constructor; [cbn; intuition congruence|constructor; [intros []|constructor]]|]. intros c Hc. apply two_In. destruct Hc as [<-|[<-|[]]]; auto. Qed.
  Lemma and_pairs_proof : Forall good_group (and_pairs rel fs) /\ NoDup (and_pairs rel fs) /\ forall M, top M -> covered M (and_pairs rel fs).
  Proof.
    unfold and_pairs. set (l := map _ (filter _ (pairs_of fs))).
    assert (Gl : Forall good_group l).
    { apply Forall_forall. intros x Hx. unfold l in Hx. apply in_map_iff in Hx. destruct Hx as ([a b] & <- & Hx). apply filter_In in Hx. cbn [fst snd] in *. destruct Hx as [Hx E]. apply andb_true_iff in E. destruct E as [E1 E2].
      rewrite negb_true_iff in E1. assert (Hne : a <> b) by (intros ->; rewrite str_eqb_refl in E1; discriminate). apply pairs_of_In in Hx. destruct Hx as [Ha Hb].
      split; [apply bset_of_sorted|]. split; [intros c Hc; apply two_In in Hc; destruct Hc as [->| ->]; assumption|]. split; [|apply two_length, Hne].
      intros c d Hc Hd Hcd. apply two_In in Hc, Hd. destruct Hc as [->| ->], Hd as [->| ->]; try contradiction; [exact E2|rewrite rel_sym; exact E2]. }
    destruct (hadds_proof group_eqb good_group group_eqb_spec l [] (Forall_nil _) (NoDup_nil _) Gl) as (A & B & C). split; [exact A|]. split; [exact B|].
    intros M [(M1 & M2 & M3 & M4) _] c Hc.
    assert (exists d, In d M /\ d <> c) as (d & Hd & Hne).
    { pose proof (bsorted_NoDup _ M1) as ND. clear - Hc M4 ND. destruct M as [|x [|y M]]; cbn [length] in M4; try lia. inversion ND as [|? ? Hn ND']; subst. destruct (str_eq_dec x c) as [->|Hx]; [exists y; split; [right; left; reflexivity|]|exists x; split; [left; reflexivity|exact Hx]].
      intros ->. apply Hn. left. reflexivity. }
    assert (exists e f, In (e, f) (pairs_of fs) /\ ((e = c /\ f = d) \/ (e = d /\ f = c))) as (e & f & Hef & Hor).
    { destruct (pairs_of_all fs c d (M2 _ Hc) (M2 _ Hd)) as [H|H]; [congruence|exists c, d; auto|exists d, c; auto]. }
    exists (bset_of [e; f]). split; [|split].
    - apply C. left. unfold l. apply in_map_iff. exists (e, f). split; [reflexivity|]. apply filter_In. split; [exact Hef|]. cbn [fst snd]. apply andb_true_iff. split.
      + rewrite negb_true_iff. destruct (str_eqb e f) eqn:E; [|reflexivity]. apply str_eqb_eq in E. destruct Hor as [[-> ->]|[-> ->]]; congruence.
      + destruct Hor as [[-> ->]|[-> ->]]; apply M3; congruence || assumption.
    - intros g Hg. apply two_In in Hg. destruct Hor as [[-> ->]|[-> ->]], Hg as [->| ->]; assumption.
    - apply two_In. destruct Hor as [[-> ->]|[-> ->]]; auto.
  Qed.
  Lemma groups_proof k : exists fuel0 r, (forall fuel, fuel0 <= fuel -> maximize group_eqb (group_merger rel) ord fuel k (and_pairs rel fs) = Ok r) /\ NoDup r /\ forall x, In x r <-> top x.
  Proof. destruct and_pairs_proof as (A & B & C). apply (rounds (S (sum gweight (and_pairs rel fs)))); auto. Qed.
End Groups.
