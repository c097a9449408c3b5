(** Proofs about the alpha algorithm: what maximizing the sets ends with. *)
From Coq Require Import Permutation Sorted Wellfounded.
From Verif Require Import Py PyFacts InfoModel InfoSpec InfoProofs HashModel EqProofs ReplayModel RInfoModel RInfoSpec RInfoProofs AlphaModel AlphaSpec AlphaProofs.

Lemma aset_eq_dec (x y : aset) : {x = y} + {x <> y}.
Proof. decide equality; apply (list_eq_dec str_eq_dec). Defined.
Definition put (s : bool) (x : aset) (l : list pystr) : aset := if s then mkASet l (as_right x) else mkASet (as_left x) l.
Lemma sd_put s s' x l : sd s (put s' x l) = if Bool.eqb s s' then l else sd s x.
Proof. destruct s, s'; reflexivity. Qed.
Lemma aset_ext x y : tidy x -> tidy y -> (forall s, same_names (sd s x) (sd s y)) -> x = y.
Proof.
  intros Hx Hy H. destruct x as [a b], y as [c d].
  pose proof (bsorted_ext _ _ (Hx true) (Hy true) (H true)) as E1. pose proof (bsorted_ext _ _ (Hx false) (Hy false) (H false)) as E2. cbn in E1, E2. congruence.
Qed.
Definition within (x y : aset) : Prop := forall s, incl (sd s x) (sd s y).
Lemma within_antisym x y : tidy x -> tidy y -> within x y -> within y x -> x = y.
Proof. intros Hx Hy H1 H2. apply aset_ext; auto. intros s c. split; [apply H1|apply H2]. Qed.
Lemma extend_In s x y c : In c (sd s (extend x y)) <-> In c (sd s x) \/ In c (sd s y).
Proof. destruct s; cbn [sd extend as_left as_right]; rewrite bset_of_In, in_app_iff; reflexivity. Qed.
Lemma extend_tidy x y : tidy (extend x y).
Proof. intros []; apply bset_of_sorted. Qed.
Lemma filter_bsorted f l : bsorted l -> bsorted (filter f l).
Proof.
  induction 1 as [|x l H IH F]; cbn [filter]; [constructor|]. destruct (f x); [|exact IH]. constructor; [exact IH|].
  rewrite Forall_forall in *. intros y Hy. apply filter_In in Hy. apply F, Hy.
Qed.
(** [a] put in place of [b]. *)
Definition swap_in (b a : pystr) (l : list pystr) : list pystr :=
  if str_mem b l then bset_insert a (filter (fun c => negb (str_eqb c b)) l) else l.
Lemma swap_in_In b a l c : In c (swap_in b a l) <-> (In b l /\ c = a) \/ (In c l /\ c <> b).
Proof.
  unfold swap_in. destruct (str_mem b l) eqn:E.
  - apply str_mem_In in E. rewrite bset_insert_In, filter_In. split.
    + intros [->|[H1 H2]]; [auto|]. right. split; [exact H1|]. intros ->. rewrite str_eqb_refl in H2. discriminate.
    + intros [[_ ->]|[H1 H2]]; [auto|]. right. split; [exact H1|]. destruct (str_eqb c b) eqn:E2; [apply str_eqb_eq in E2; contradiction|reflexivity].
  - assert (Hn : ~ In b l) by (intros H; apply str_mem_In in H; congruence). split.
    + intros H. right. split; [exact H|]. intros ->. contradiction.
    + intros [[H _]|[H _]]; [contradiction|exact H].
Qed.
Lemma swap_in_sorted b a l : bsorted l -> bsorted (swap_in b a l).
Proof. intros H. unfold swap_in. destruct (str_mem b l); [apply bset_insert_sorted, filter_bsorted, H|exact H]. Qed.
Definition swapped (s : bool) (b a : pystr) (x : aset) : aset := put s x (swap_in b a (sd s x)).
Lemma swapped_tidy s b a x : tidy x -> tidy (swapped s b a x).
Proof. intros H s'. unfold swapped. rewrite sd_put. destruct (Bool.eqb s' s); [apply swap_in_sorted, H|apply H]. Qed.

(** * Sums of weights *)
Section Weights.
  Context {T : Type}.
  Variable w : T -> nat.
  Definition sum (l : list T) : nat := fold_right (fun x n => w x + n) 0 l.
  Lemma sum_app l l' : sum (l ++ l') = sum l + sum l'.
  Proof. induction l as [|x l IH]; cbn; [reflexivity|]. fold (sum l) (sum (l ++ l')). unfold sum in *. lia. Qed.
  Lemma sum_perm l l' : Permutation l l' -> sum l = sum l'.
  Proof. induction 1; cbn; unfold sum in *; lia. Qed.
  Lemma sum_filter f l : sum l = sum (filter f l) + sum (filter (fun x => negb (f x)) l).
  Proof. induction l as [|x l IH]; cbn [filter sum fold_right]; [reflexivity|]. destruct (f x); cbn [negb fold_right sum]; unfold sum in *; cbn [fold_right]; lia. Qed.
  Lemma sum_incl l l' : NoDup l -> incl l l' -> sum l <= sum l'.
  Proof.
    intros H. revert l'. induction H as [|x l Hx H IH]; intros l' Hi; [cbn; lia|].
    destruct (in_split x l') as (l1 & l2 & ->); [apply Hi; left; reflexivity|].
    assert (I : incl l (l1 ++ l2)).
    { intros y Hy. assert (y <> x) by (intros ->; contradiction). specialize (Hi y (or_intror Hy)). rewrite in_app_iff in *. cbn in Hi. intuition congruence. }
    apply IH in I. rewrite sum_app in *. cbn [sum fold_right]. unfold sum in *. cbn [fold_right]. lia.
  Qed.
  Lemma sum_bound l b : (forall x, In x l -> w x <= b) -> sum l <= length l * b.
  Proof. induction l as [|x l IH]; intros H; cbn [sum fold_right length]; [lia|]. assert (w x <= b) by (apply H; left; reflexivity). assert (sum l <= length l * b) by (apply IH; intros y Hy; apply H; right; exact Hy). unfold sum in *. lia. Qed.
  Lemma sum_In l x : In x l -> w x <= sum l.
  Proof. induction l as [|y l IH]; intros []; cbn [sum fold_right]; [subst; lia|]. apply IH in H. unfold sum in *. lia. Qed.
End Weights.

Fixpoint pow (l : list pystr) : list (list pystr) := match l with [] => [[]] | x :: r => pow r ++ map (cons x) (pow r) end.
Lemma pow_In l : bsorted l -> forall l', bsorted l' -> incl l' l -> In l' (pow l).
Proof.
  induction 1 as [|x l H IH F]; intros l' H' I; cbn [pow].
  - destruct l' as [|y l']; [left; reflexivity|]. exfalso. apply (I y). left. reflexivity.
  - rewrite Forall_forall in F. apply in_app_iff. destruct (in_dec str_eq_dec x l') as [Hx|Hx].
    + right. destruct H' as [|y l' H' F']; [destruct Hx|]. rewrite Forall_forall in F'.
      assert (y = x).
      { destruct (I y) as [E|E]; [left; reflexivity|auto|]. destruct Hx as [E'|Hx]; [exact E'|]. apply F in E. apply F' in Hx. exfalso. apply (proj2 E). apply str_leb_antisym; [apply E|apply Hx]. }
      subst y. apply in_map. apply IH; [exact H'|]. intros z Hz. destruct (I z) as [E|E]; [right; exact Hz| |exact E]. subst z. apply F' in Hz. exfalso. apply (proj2 Hz). reflexivity.
    + left. apply IH; [exact H'|]. intros z Hz. destruct (I z Hz) as [E|E]; [subst; contradiction|exact E].
Qed.

Section Sets.
  Variable p : aprovider.
  Variable classes : list pystr.
  Let Cb := ap_causal p.
  Let Ub := ap_unrelated p.
  Let C := fun a b => ap_causal p a b = true.
  Let U := fun a b => ap_unrelated p a b = true.
  Hypothesis CU : forall a b, C a b -> ~ U a b.
  Hypothesis C_classes : forall a b, C a b -> In a classes /\ In b classes.

  Definition good (x : aset) : Prop := tidy x /\ fits C U (as_left x) (as_right x).
  Lemma good_sd x s : good x -> sd s x <> [] /\ (forall a b, In a (sd s x) -> In b (sd s x) -> U a b) /\ incl (sd s x) classes.
  Proof.
    intros (_ & A & B & H1 & H2 & H3). destruct s; cbn [sd]; split; try assumption; split; try assumption; intros c Hc.
    - destruct (as_right x) as [|b l]; [congruence|]. apply (C_classes c b). apply H1; [exact Hc|left; reflexivity].
    - destruct (as_left x) as [|b l]; [congruence|]. apply (C_classes b c). apply H1; [left; reflexivity|exact Hc].
  Qed.
  Lemma good_within x y : tidy x -> (forall s, sd s x <> []) -> good y -> within x y -> good x.
  Proof.
    intros T N (_ & _ & _ & H1 & H2 & H3) W. split; [exact T|]. pose proof (W true) as Wl. pose proof (W false) as Wr. cbn [sd] in Wl, Wr.
    split; [exact (N true)|]. split; [exact (N false)|]. split; [|split]; intros; auto.
  Qed.
  Lemma can_extend_spec x y : tidy x -> (forall s, sd s x <> []) -> (can_extend p x y = true <-> good (extend x y)).
  Proof.
    intros T N. unfold can_extend. rewrite !andb_true_iff, !forallb_forall. split.
    - intros [[H1 H2] H3]. split; [apply extend_tidy|]. split; [|split].
      + destruct (as_left (extend x y)) eqn:E; [|discriminate]. specialize (N true). cbn [sd] in N. destruct (as_left x) as [|c l] eqn:El; [congruence|].
        exfalso. assert (In c (sd true (extend x y))) by (apply extend_In; left; cbn [sd]; rewrite El; left; reflexivity). cbn [sd] in H. rewrite E in H. destruct H.
      + destruct (as_right (extend x y)) eqn:E; [|discriminate]. specialize (N false). cbn [sd] in N. destruct (as_right x) as [|c l] eqn:El; [congruence|].
        exfalso. assert (In c (sd false (extend x y))) by (apply extend_In; left; cbn [sd]; rewrite El; left; reflexivity). cbn [sd] in H. rewrite E in H. destruct H.
      + split; [|split]; intros a b Ha Hb; cbn [extend as_left as_right] in Ha, Hb; rewrite bset_of_In in Ha, Hb;
          [specialize (H1 a Ha); rewrite forallb_forall in H1; apply H1, Hb|specialize (H2 a Ha); rewrite forallb_forall in H2; apply H2, Hb|specialize (H3 a Ha); rewrite forallb_forall in H3; apply H3, Hb].
    - intros (_ & _ & _ & H1 & H2 & H3). cbn [extend as_left as_right] in *. split; [split|]; intros a Ha; apply forallb_forall; intros b Hb; apply bset_of_In in Ha, Hb; auto.
      + apply H1; auto.
      + apply H2; auto.
      + apply H3; auto.
  Qed.
  Definition touch (x y : aset) : Prop := exists s, incl (sd s x) (sd s y).
  Lemma merger_spec x y z : good x -> (set_merger p x y = Some z <-> touch x y /\ good (extend x y) /\ z = extend x y).
  Proof.
    intros G. assert (CE := can_extend_spec x y (proj1 G) (fun s => proj1 (good_sd x s G))). unfold set_merger.
    assert (Ht : is_left_subset x y || is_right_subset x y = true <-> touch x y).
    { rewrite orb_true_iff. unfold is_left_subset, is_right_subset. rewrite !bset_subset_spec. split.
      - intros [H|H]; [exists true; exact H|exists false; exact H].
      - intros [[] H]; [left; exact H|right; exact H]. }
    destruct (is_left_subset x y || is_right_subset x y); cbn [andb].
    - destruct (can_extend p x y).
      + split; [intros H; injection H as <-; split; [apply Ht; reflexivity|split; [apply CE; reflexivity|reflexivity]]|]. intros (_ & _ & ->). reflexivity.
      + split; [discriminate|]. intros (_ & H & _). apply CE in H. discriminate.
    - split; [discriminate|]. intros (H & _). apply Ht in H. discriminate.
  Qed.
  Lemma merger_good x y z : good x -> good y -> set_merger p x y = Some z -> good z.
  Proof. intros Gx _ H. apply merger_spec in H; [|exact Gx]. destruct H as (_ & H & ->). exact H. Qed.
  Lemma as_eqb_spec x y : good x -> good y -> (as_eqb x y = true <-> x = y).
  Proof.
    intros Gx Gy. unfold as_eqb. destruct (list_eq_dec str_eq_dec _ _) as [E|E]; [|split; [discriminate|intros ->; congruence]]. split; [|reflexivity]. intros _.
    destruct x as [xl xr], y as [yl yr]. cbn [as_left as_right] in E.
    destruct Gx as (_ & Nx1 & Nx2 & X1 & X2 & X3), Gy as (_ & Ny1 & Ny2 & Y1 & Y2 & Y3). cbn [as_left as_right] in *.
    apply app_eq_app in E. destruct E as ([|q l] & [[-> ->]|[-> ->]]); try (rewrite app_nil_r; reflexivity); exfalso.
    - destruct yl as [|a yl]; [congruence|]. apply (CU a q); [apply Y1; [left; reflexivity|left; reflexivity]|]. apply X2; apply in_app_iff; [left; left; reflexivity|right; left; reflexivity].
    - destruct xl as [|a xl]; [congruence|]. apply (CU a q); [apply X1; [left; reflexivity|left; reflexivity]|]. apply Y2; apply in_app_iff; [left; left; reflexivity|right; left; reflexivity].
  Qed.

  (** ** Size and the measure *)
  Definition size (x : aset) : nat := length (as_left x) + length (as_right x).
  Lemma within_size x y : tidy x -> within x y -> size x <= size y.
  Proof.
    intros T W. unfold size. pose proof (NoDup_incl_length (bsorted_NoDup _ (T true)) (W true)) as H1. pose proof (NoDup_incl_length (bsorted_NoDup _ (T false)) (W false)) as H2. cbn [sd] in *. lia.
  Qed.
  Lemma within_same_size x y : tidy x -> tidy y -> within x y -> size y <= size x -> x = y.
  Proof.
    intros Tx Ty W S. apply within_antisym; auto. unfold size in S.
    pose proof (NoDup_incl_length (bsorted_NoDup _ (Tx true)) (W true)) as H1. pose proof (NoDup_incl_length (bsorted_NoDup _ (Tx false)) (W false)) as H2. cbn [sd] in *.
    intros []; [apply NoDup_length_incl; [exact (bsorted_NoDup _ (Tx true))| |exact (W true)]|apply NoDup_length_incl; [exact (bsorted_NoDup _ (Tx false))| |exact (W false)]]; cbn [sd]; lia.
  Qed.
  Let K := 2 * length classes.
  Lemma good_size x : good x -> size x <= K.
  Proof.
    intros G. unfold size, K. destruct (good_sd x true G) as (_ & _ & I1), (good_sd x false G) as (_ & _ & I2).
    apply (NoDup_incl_length (bsorted_NoDup _ (proj1 G true))) in I1. apply (NoDup_incl_length (bsorted_NoDup _ (proj1 G false))) in I2. cbn [sd] in *. lia.
  Qed.
  Let all := map (fun ab => mkASet (fst ab) (snd ab)) (list_prod (pow (bset_of classes)) (pow (bset_of classes))).
  Lemma good_all x : good x -> In x all.
  Proof.
    intros G. unfold all. apply in_map_iff. exists (as_left x, as_right x). split; [destruct x; reflexivity|].
    apply in_prod; (apply pow_In; [apply bset_of_sorted| |intros c Hc; apply bset_of_In]).
    - exact (proj1 G true).
    - apply (proj2 (proj2 (good_sd x true G))). exact Hc.
    - exact (proj1 G false).
    - apply (proj2 (proj2 (good_sd x false G))). exact Hc.
  Qed.
  Let N := length all.
  Definition weight (x : aset) : nat := (S N) ^ (K - size x).
  Definition joins (vec : list aset) (x : aset) : bool :=
    existsb (fun y => if aset_eq_dec y x then false else match set_merger p x y, set_merger p y x with None, None => false | _, _ => true end) vec.
  Lemma joins_spec vec x : joins vec x = true <-> exists y, In y vec /\ y <> x /\ (set_merger p x y <> None \/ set_merger p y x <> None).
  Proof.
    unfold joins. rewrite existsb_exists. split; intros (y & Hy & H); exists y; (split; [exact Hy|]).
    - destruct (aset_eq_dec y x); [discriminate|]. split; [assumption|]. destruct (set_merger p x y), (set_merger p y x); try discriminate; (left; discriminate) || (right; discriminate).
    - destruct H as [H1 H2]. destruct (aset_eq_dec y x); [contradiction|]. destruct (set_merger p x y), (set_merger p y x); try reflexivity. destruct H2; congruence.
  Qed.
  Lemma least (l : list aset) : l <> [] -> exists x, In x l /\ forall y, In y l -> size x <= size y.
  Proof.
    induction l as [|x l IH]; [congruence|]. intros _. destruct l as [|y l].
    - exists x. split; [left; reflexivity|]. intros y [<-|[]]. lia.
    - destruct IH as (z & Hz & H); [discriminate|]. destruct (Nat.le_gt_cases (size x) (size z)) as [L|L].
      + exists x. split; [left; reflexivity|]. intros u [<-|Hu]; [lia|]. apply H in Hu. lia.
      + exists z. split; [right; exact Hz|]. intros u [<-|Hu]; [lia|]. apply H, Hu.
  Qed.
  Lemma merge_grows x y z : good x -> good y -> x <> y -> set_merger p x y = Some z -> size x < size z \/ size y < size z.
  Proof.
    intros Gx Gy Hne H. apply merger_spec in H; [|exact Gx]. destruct H as (_ & Gz & ->).
    assert (Wx : within x (extend x y)) by (intros s c Hc; apply extend_In; auto). assert (Wy : within y (extend x y)) by (intros s c Hc; apply extend_In; auto).
    destruct (Nat.le_gt_cases (size (extend x y)) (size x)) as [L|L]; [|auto]. destruct (Nat.le_gt_cases (size (extend x y)) (size y)) as [L'|L']; [|auto]. exfalso. apply Hne.
    rewrite (within_same_size _ _ (proj1 Gx) (extend_tidy x y) Wx L). symmetry. rewrite (within_same_size _ _ (proj1 Gy) (extend_tidy x y) Wy L') at 1. reflexivity.
  Qed.
  Lemma round_smaller vec new : Forall good vec -> NoDup vec -> max_round as_eqb (set_merger p) vec = Some new -> sum weight new < sum weight vec.
  Proof.
    intros G ND E. pose proof (round_proof as_eqb (set_merger p) good as_eqb_spec merger_good vec G ND) as R. rewrite E in R.
    destruct R as (Gn & NDn & (x0 & y0 & z0 & Hx0 & Hy0 & Hne0 & E0) & Hin). rewrite Forall_forall in G, Gn.
    destruct (least (filter (joins vec) vec)) as (m & Hm & Hmin).
    { intros F. assert (In x0 (filter (joins vec) vec)); [|rewrite F in H; destruct H]. apply filter_In. split; [exact Hx0|]. apply joins_spec. exists y0. split; [exact Hy0|]. split; [congruence|]. left. congruence. }
    rewrite (sum_filter weight (joins vec) vec), (sum_filter weight (fun z => if in_dec aset_eq_dec z (filter (fun x => negb (joins vec x)) vec) then false else true) new).
    assert (L1 : sum weight (filter (fun z => negb (if in_dec aset_eq_dec z (filter (fun x => negb (joins vec x)) vec) then false else true)) new) <= sum weight (filter (fun x => negb (joins vec x)) vec)).
    { apply sum_incl; [apply NoDup_filter, NDn|]. intros z Hz. apply filter_In in Hz. destruct Hz as [_ Hz]. destruct (in_dec aset_eq_dec z _); [assumption|discriminate]. }
    assert (L2 : weight m <= sum weight (filter (joins vec) vec)) by (apply sum_In, Hm).
    assert (L3 : sum weight (filter (fun z => if in_dec aset_eq_dec z (filter (fun x => negb (joins vec x)) vec) then false else true) new) < weight m).
    { set (l := filter _ new).
      assert (Hl : forall z, In z l -> size m < size z /\ size z <= K).
      { intros z Hz. apply filter_In in Hz. destruct Hz as [Hz Hk]. destruct (in_dec aset_eq_dec z _) as [|Hk']; [discriminate|]. split; [|apply good_size, Gn, Hz].
        apply Hin in Hz. destruct Hz as [(x & y & Hx & Hy & Hne & Em)|[Hz Hno]].
        - assert (size m <= size x) by (apply Hmin, filter_In; split; [exact Hx|]; apply joins_spec; exists y; split; [exact Hy|split; [congruence|left; congruence]]).
          assert (size m <= size y) by (apply Hmin, filter_In; split; [exact Hy|]; apply joins_spec; exists x; split; [exact Hx|split; [congruence|right; congruence]]).
          destruct (merge_grows x y z (G x Hx) (G y Hy) Hne Em); lia.
        - exfalso. apply Hk'. apply filter_In. split; [exact Hz|]. destruct (joins vec z) eqn:J; [|reflexivity]. apply joins_spec in J. destruct J as (y & Hy & Hne & D).
          destruct (Hno y Hy Hne). destruct D; contradiction. }
      destruct l as [|z l'] eqn:El; [cbn; unfold weight; apply Nat.neq_0_lt_0, Nat.pow_nonzero; discriminate|]. rewrite <- El in *.
      assert (Lm : size m < K) by (assert (In z l) by (rewrite El; left; reflexivity); apply Hl in H; lia).
      assert (B : sum weight l <= length l * S N ^ (K - size m - 1)).
      { apply sum_bound. intros u Hu. apply Hl in Hu. unfold weight. apply Nat.pow_le_mono_r; [discriminate|lia]. }
      assert (Ln : length l <= N). { apply NoDup_incl_length; [apply NoDup_filter, NDn|]. intros u Hu. apply good_all, Gn. apply filter_In in Hu. apply Hu. }
      assert (Ew : weight m = S N * S N ^ (K - size m - 1)). { unfold weight. rewrite <- Nat.pow_succ_r'. f_equal. lia. }
      assert (0 < S N ^ (K - size m - 1)) by (apply Nat.neq_0_lt_0, Nat.pow_nonzero; discriminate).
      rewrite Ew. nia. }
    lia.
  Qed.

  (** ** Every maximal pair stays within reach *)
  Variable M : aset.
  Hypothesis M_good : good M.
  Hypothesis M_max : forall x, good x -> within M x -> x = M.
  Definition reach (vec : list aset) : Prop :=
    (exists x, In x vec /\ within x M) /\
    forall x s b a, In x vec -> within x M -> In b (sd s x) -> In a (sd s M) -> ~ In a (sd s x) -> In (swapped s b a x) vec.
  Lemma swapped_sd s b a x s' c : In c (sd s' (swapped s b a x)) <-> if Bool.eqb s' s then (In b (sd s x) /\ c = a) \/ (In c (sd s x) /\ c <> b) else In c (sd s' x).
  Proof. unfold swapped. rewrite sd_put. destruct (Bool.eqb s' s); [apply swap_in_In|reflexivity]. Qed.
  Lemma swapped_within s b a x : within x M -> In a (sd s M) -> within (swapped s b a x) M.
  Proof.
    intros W Ha s' c Hc. apply swapped_sd in Hc. destruct (Bool.eqb s' s) eqn:E; [|apply W, Hc]. apply eqb_prop in E. subst s'.
    destruct Hc as [[_ ->]|[Hc _]]; [exact Ha|apply W, Hc].
  Qed.
  Lemma sub_merges x y : good x -> within x M -> within y M -> touch x y -> set_merger p x y = Some (extend x y).
  Proof.
    intros Gx Wx Wy T. apply merger_spec; [exact Gx|]. split; [exact T|]. split; [|reflexivity]. apply (good_within _ M); [apply extend_tidy| |exact M_good|].
    - intros s E. destruct (sd s x) as [|c l] eqn:El; [destruct (good_sd x s Gx); contradiction|]. assert (In c (sd s (extend x y))) by (apply extend_In; left; rewrite El; left; reflexivity). rewrite E in H. destruct H.
    - intros s c Hc. apply extend_In in Hc. destruct Hc; [apply Wx|apply Wy]; assumption.
  Qed.
  Lemma not_full x : good x -> within x M -> x <> M -> exists s b a, In b (sd s x) /\ In a (sd s M) /\ ~ In a (sd s x).
  Proof.
    intros G W Hne.
    assert (D : forall s, {a | In a (sd s M) /\ ~ In a (sd s x)} + {incl (sd s M) (sd s x)}).
    { intros s. induction (sd s M) as [|c l IH]; [right; intros c []|]. destruct (in_dec str_eq_dec c (sd s x)) as [H|H].
      - destruct IH as [(a & Ha & Hn)|I]; [left; exists a; split; [right; exact Ha|exact Hn]|right; intros d [<-|Hd]; auto].
      - left. exists c. split; [left; reflexivity|exact H]. }
    assert (Hb : forall s, exists b, In b (sd s x)). { intros s. destruct (good_sd x s G) as [Hn _]. destruct (sd s x) as [|b l]; [congruence|]. exists b. left. reflexivity. }
    destruct (D true) as [(a & Ha & Hn)|I1]; [destruct (Hb true) as [b B]; exists true, b, a; auto|].
    destruct (D false) as [(a & Ha & Hn)|I2]; [destruct (Hb false) as [b B]; exists false, b, a; auto|].
    exfalso. apply Hne. apply within_antisym; [apply G|apply M_good|exact W|]. intros []; assumption.
  Qed.
  Lemma reach_joins vec x : Forall good vec -> reach vec -> In x vec -> within x M -> x <> M ->
    exists y, In y vec /\ y <> x /\ within y M /\ set_merger p x y = Some (extend x y) /\ within (extend x y) M.
  Proof.
    intros G [_ R] Hx W Hne. rewrite Forall_forall in G. destruct (not_full x (G x Hx) W Hne) as (s & b & a & Hb & Ha & Hn).
    exists (swapped s b a x). specialize (R x s b a Hx W Hb Ha Hn). split; [exact R|]. assert (Wy := swapped_within s b a x W Ha). split.
    - intros E. apply Hn. rewrite <- E. apply swapped_sd. rewrite eqb_reflx. auto.
    - split; [exact Wy|]. split.
      + apply sub_merges; auto. exists (negb s). intros c Hc. apply swapped_sd. destruct s; exact Hc.
      + intros s' c Hc. apply extend_In in Hc. destruct Hc; [apply W|apply Wy]; assumption.
  Qed.
  Lemma touch_swapped s b a x y : touch x y -> ~ In a (sd s x) -> ~ In a (sd s y) -> touch (swapped s b a x) (swapped s b a y).
  Proof.
    intros [s' I] Nx Ny. exists s'. intros c Hc. apply swapped_sd in Hc. apply swapped_sd. destruct (Bool.eqb s' s) eqn:E.
    - apply eqb_prop in E. subst s'. destruct Hc as [[H ->]|[H1 H2]]; [left; split; [apply I, H|reflexivity]|right; split; [apply I, H1|exact H2]].
    - apply I, Hc.
  Qed.
  Lemma swapped_absent s b a x : tidy x -> ~ In b (sd s x) -> swapped s b a x = x.
  Proof.
    intros T H. apply aset_ext; [apply swapped_tidy, T|exact T|]. intros s' c. rewrite swapped_sd. destruct (Bool.eqb s' s) eqn:E; [|reflexivity]. apply eqb_prop in E. subst s'. split.
    - intros [[H' _]|[H' _]]; [contradiction|exact H'].
    - intros Hc. right. split; [exact Hc|]. intros ->. contradiction.
  Qed.
  Lemma swapped_inj s b a x y : tidy x -> tidy y -> ~ In a (sd s x) -> ~ In a (sd s y) -> swapped s b a x = swapped s b a y -> x = y.
  Proof.
    intros Tx Ty Nx Ny E. apply aset_ext; auto. intros s' c.
    assert (H : forall d, In d (sd s' (swapped s b a x)) <-> In d (sd s' (swapped s b a y))) by (intros d; rewrite E; reflexivity).
    destruct (Bool.eqb s' s) eqn:Es.
    - apply eqb_prop in Es. subst s'. destruct (str_eq_dec c b) as [->|Hcb].
      + specialize (H a). rewrite !swapped_sd, !eqb_reflx in H. destruct H as [H1 H2]. split; intros Hb.
        * destruct H1 as [[H _]|[H _]]; [left; auto|exact H|contradiction].
        * destruct H2 as [[H _]|[H _]]; [left; auto|exact H|contradiction].
      + specialize (H c). rewrite !swapped_sd, !eqb_reflx in H. split; intros Hc.
        * destruct (proj1 H) as [[_ H']|[H' _]]; [right; auto| |exact H']. subst c. contradiction.
        * destruct (proj2 H) as [[_ H']|[H' _]]; [right; auto| |exact H']. subst c. contradiction.
    - specialize (H c). rewrite !swapped_sd, !Es in H. exact H.
  Qed.
  Lemma swapped_extend s b a x y : ~ In a (sd s (extend x y)) -> In b (sd s (extend x y)) -> swapped s b a (extend x y) = extend (swapped s b a x) (swapped s b a y).
  Proof.
    intros Nz Hb. apply aset_ext; [apply swapped_tidy, extend_tidy|apply extend_tidy|]. intros s' c. rewrite extend_In, !swapped_sd.
    destruct (Bool.eqb s' s); rewrite ?extend_In; [|reflexivity]. tauto.
  Qed.
  Lemma reach_round vec new : Forall good vec -> NoDup vec -> reach vec -> max_round as_eqb (set_merger p) vec = Some new -> reach new.
  Proof.
    intros G ND R E. pose proof (round_proof as_eqb (set_merger p) good as_eqb_spec merger_good vec G ND) as H. rewrite E in H. destruct H as (Gn & NDn & _ & Hin).
    pose proof G as G'. rewrite Forall_forall in G'. split.
    - destruct R as [(x & Hx & W) R']. destruct (aset_eq_dec x M) as [->|Hne].
      + exists M. split; [|intros s c Hc; exact Hc]. apply Hin.
        destruct (existsb (fun y => if aset_eq_dec y M then false else match set_merger p M y, set_merger p y M with None, None => false | _, _ => true end) vec) eqn:J.
        * left. apply joins_spec in J. destruct J as (y & Hy & Hne & D).
          destruct D as [D|D].
          -- destruct (set_merger p M y) as [z|] eqn:Em; [|congruence]. assert (z = M).
             { apply M_max; [eapply merger_good; [| |exact Em]; auto|]. apply merger_spec in Em; [|exact M_good]. destruct Em as (_ & _ & ->). intros s c Hc. apply extend_In. auto. }
             subst z. exists M, y. auto.
          -- destruct (set_merger p y M) as [z|] eqn:Em; [|congruence]. assert (z = M).
             { apply M_max; [eapply merger_good; [| |exact Em]; auto|]. apply merger_spec in Em; [|auto]. destruct Em as (_ & _ & ->). intros s c Hc. apply extend_In. auto. }
             subst z. exists y, M. auto.
        * right. split; [exact Hx|]. intros y Hy Hne.
          assert (Hj : ~ (set_merger p M y <> None \/ set_merger p y M <> None)).
          { intros D. assert (joins vec M = true) by (apply joins_spec; exists y; auto). unfold joins in H. congruence. }
          split; [destruct (set_merger p M y)|destruct (set_merger p y M)]; try reflexivity; exfalso; apply Hj; [left|right]; discriminate.
      + destruct (reach_joins vec x G (conj (ex_intro _ x (conj Hx W)) R') Hx W Hne) as (y & Hy & Hyx & _ & Em & We). exists (extend x y). split; [|exact We]. apply Hin. left. exists x, y. auto.
    - intros z s b a Hz W Hb Ha Hn. apply Hin. apply Hin in Hz. destruct Hz as [(x & y & Hx & Hy & Hne & Em)|[Hz Hno]].
      + apply merger_spec in Em; [|auto]. destruct Em as (T & Gz & ->). left.
        assert (Wx : within x M) by (intros s' c Hc; apply W, extend_In; auto). assert (Wy : within y M) by (intros s' c Hc; apply W, extend_In; auto).
        assert (Nx : ~ In a (sd s x)) by (intros H; apply Hn, extend_In; auto). assert (Ny : ~ In a (sd s y)) by (intros H; apply Hn, extend_In; auto).
        assert (Hsw : forall u, In u vec -> within u M -> ~ In a (sd s u) -> In (swapped s b a u) vec).
        { intros u Hu Wu Nu. destruct (in_dec str_eq_dec b (sd s u)) as [Hbu|Hbu]; [apply (proj2 R); auto|]. rewrite swapped_absent; [exact Hu|apply G', Hu|exact Hbu]. }
        exists (swapped s b a x), (swapped s b a y). split; [auto|]. split; [auto|]. split; [intros Eq; apply Hne; eapply swapped_inj; [| | | |exact Eq]; auto; apply G'; auto|].
        rewrite swapped_extend by auto. apply sub_merges; [apply G'; auto|apply swapped_within; auto|apply swapped_within; auto|apply touch_swapped; auto].
      + exfalso. destruct (aset_eq_dec z M) as [->|Hne]; [apply Hn, Ha|]. destruct (reach_joins vec z G R Hz W Hne) as (y & Hy & Hyz & _ & Em & _). destruct (Hno y Hy Hyz). congruence.
  Qed.
  Lemma reach_end vec : Forall good vec -> NoDup vec -> reach vec -> max_round as_eqb (set_merger p) vec = None -> In M vec.
  Proof.
    intros G ND R E. pose proof (round_proof as_eqb (set_merger p) good as_eqb_spec merger_good vec G ND) as H. rewrite E in H.
    destruct R as [(x & Hx & W) R']. destruct (aset_eq_dec x M) as [->|Hne]; [exact Hx|].
    destruct (reach_joins vec x G (conj (ex_intro _ x (conj Hx W)) R') Hx W Hne) as (y & Hy & Hyx & _ & Em & _). rewrite H in Em by auto. discriminate.
  Qed.
  Lemma reach_perm vec vec' : Permutation vec vec' -> reach vec -> reach vec'.
  Proof.
    intros Pm [(x & Hx & W) R]. split; [exists x; split; [eapply Permutation_in; eauto|exact W]|]. intros y s b a Hy Wy Hb Ha Hn. eapply Permutation_in; [exact Pm|].
    apply R; auto. eapply Permutation_in; [symmetry; exact Pm|exact Hy].
  Qed.
End Sets.
