(** Proofs for C67: repeat sets of the backend. *)
From Coq Require Import Sorting.Sorted Permutation.
From Verif Require Import Py PyFacts ReplayModel HashModel PatternModel PatternSpec PatternProofs RepeatProofs HighProofs RInfoSpec TreeModel TreeSpec RActModel RActSpec RActProofs1.
From Verif Require SufModel.

Lemma poly_step_err sip st x e : poly_step sip st x = Err e -> e = AssertionErr.
Proof.
  destruct st as [h p]. unfold poly_step. cbv zeta. destruct (u64_range <=? 1 + sip x)%N; [intros [= <-]; reflexivity|].
  destruct (u64_range <=? _)%N; [intros [= <-]; reflexivity|discriminate].
Qed.
Lemma poly_loop_err sip : forall w st e, loopM (poly_step sip) w st = Err e -> e = AssertionErr.
Proof.
  induction w as [|x w IH]; intros st e H; [discriminate|]. cbn [loopM] in H. destruct (poly_step sip st x) as [st'|e'] eqn:E; cbn [bind] in H.
  - exact (IH st' e H).
  - injection H as <-. exact (poly_step_err sip st x e' E).
Qed.
Lemma poly_hash_err sip w e : poly_hash sip w = Err e -> e = AssertionErr.
Proof.
  unfold poly_hash. destruct (loopM (poly_step sip) w (1%N, 1%N)) as [st|e'] eqn:E; cbn [bind]; [discriminate|]. intros [= <-]. exact (poly_loop_err sip w _ _ E).
Qed.
Lemma poly_hash_one sip x : (poly_hash sip [x] = rpanic) \/ exists h, poly_hash sip [x] = Ok h /\ (h < poly_mod)%N.
Proof.
  unfold poly_hash. cbn [loopM]. unfold poly_step. cbv zeta. destruct (u64_range <=? 1 + sip x)%N; [left; reflexivity|].
  destruct (u64_range <=? _)%N; [left; reflexivity|]. right. cbn [bind fst]. eexists. split; [reflexivity|]. apply N.mod_lt. discriminate.
Qed.

(** * sorting *)
Lemma in_insert_u64 x y l : In y (insert_u64 x l) <-> y = x \/ In y l.
Proof. induction l as [|z l IH]; [cbn; split; intros [H|H]; auto|]. cbn [insert_u64]. destruct (N.leb x z); cbn; [|rewrite IH]; split; intros H; repeat destruct H as [H|H]; auto. Qed.
Lemma insert_u64_sorted x l : ~ In x l -> StronglySorted N.lt l -> StronglySorted N.lt (insert_u64 x l).
Proof.
  intros Hn. induction 1 as [|z l Hs IH HF]; [repeat constructor|]. cbn [insert_u64]. rewrite Forall_forall in HF. destruct (N.leb_spec x z) as [H|H].
  - assert (x <> z) by (intros ->; apply Hn; left; reflexivity). constructor; [constructor; [exact Hs|apply Forall_forall; exact HF]|].
    constructor; [lia|]. apply Forall_forall. intros y Hy. specialize (HF y Hy). lia.
  - constructor; [apply IH; intros Hin; apply Hn; right; exact Hin|]. apply Forall_forall. intros y Hy. apply in_insert_u64 in Hy. destruct Hy as [->|Hy]; [exact H|apply HF; exact Hy].
Qed.
Lemma sort_u64_spec : forall l, NoDup l -> StronglySorted N.lt (fold_right insert_u64 [] l) /\ forall y, In y (fold_right insert_u64 [] l) <-> In y l.
Proof.
  induction l as [|x l IH]; intros H; [split; [constructor|tauto]|]. inversion H as [|? ? Hn Hd]; subst. destruct (IH Hd) as [I1 I2]. cbn [fold_right]. split.
  - apply insert_u64_sorted; [rewrite I2; exact Hn|exact I1].
  - intros y. rewrite in_insert_u64, I2. cbn. split; intros [K|K]; auto.
Qed.
Lemma sorted_classes_eq ord w : any_order ord -> r_sorted_classes ord w = sorted_set w.
Proof.
  intros Ho. unfold r_sorted_classes. pose proof (Ho 0 N (nodup N.eq_dec w)) as Hp.
  destruct (sort_u64_spec (ord 0 N (nodup N.eq_dec w))) as [S1 S2]; [apply (Permutation_NoDup (Permutation_sym Hp)); apply NoDup_nodup|].
  apply sorted_ext; [exact S1|apply sorted_set_sorted|]. intros x. rewrite S2, in_sorted_set. split; intros H.
  - apply (Permutation_in _ Hp) in H. apply nodup_In in H. exact H.
  - apply (Permutation_in _ (Permutation_sym Hp)). apply nodup_In. exact H.
Qed.

Lemma rs_leb_iff a b : rs_leb a b = true <-> earlier a b.
Proof.
  unfold rs_leb, earlier. destruct (Nat.eqb_spec (rs_trace_index a) (rs_trace_index b)).
  - destruct (Nat.eqb_spec (rs_first_pos a) (rs_first_pos b)); cbn [negb]; rewrite Nat.leb_le; lia.
  - rewrite Nat.leb_le. lia.
Qed.
Lemma earlier_trans a b c : earlier a b -> earlier b c -> earlier a c.
Proof. unfold earlier. lia. Qed.
Lemma earlier_antisym a b : earlier a b -> earlier b a -> a = b.
Proof. unfold earlier. intros H1 H2. destruct a as [a1 a2 a3], b as [b1 b2 b3]. cbn in *. assert (a1 = b1 /\ a2 = b2 /\ a3 = b3) as [-> [-> ->]] by lia. reflexivity. Qed.
Lemma insert_rs_perm x l : Permutation (insert_rs x l) (x :: l).
Proof. induction l as [|y l IH]; [reflexivity|]. cbn [insert_rs]. destruct (rs_leb x y); [reflexivity|]. rewrite IH. apply perm_swap. Qed.
Lemma sort_rs_perm l : Permutation (fold_right insert_rs [] l) l.
Proof. induction l as [|x l IH]; [constructor|]. cbn [fold_right]. rewrite insert_rs_perm. constructor. exact IH. Qed.
Lemma insert_rs_sorted x l : StronglySorted earlier l -> StronglySorted earlier (insert_rs x l).
Proof.
  induction 1 as [|y l Hs IH HF]; [repeat constructor|]. cbn [insert_rs]. destruct (rs_leb x y) eqn:E.
  - apply rs_leb_iff in E. constructor; [constructor; assumption|]. constructor; [exact E|]. eapply Forall_impl; [|exact HF]. intros z Hz. exact (earlier_trans _ _ _ E Hz).
  - assert (Hyx : earlier y x). { assert (~ earlier x y) by (intros K; apply rs_leb_iff in K; congruence). unfold earlier in *. lia. }
    constructor; [exact IH|]. apply Forall_forall. intros z Hz. apply (Permutation_in _ (insert_rs_perm x l)) in Hz. destruct Hz as [<-|Hz]; [exact Hyx|]. rewrite Forall_forall in HF. apply HF. exact Hz.
Qed.
Lemma sort_rs_sorted l : StronglySorted earlier (fold_right insert_rs [] l).
Proof. induction l; cbn [fold_right]; [constructor|]. apply insert_rs_sorted. assumption. Qed.
Lemma sorted_perm_eq : forall a b, StronglySorted earlier a -> StronglySorted earlier b -> Permutation a b -> a = b.
Proof.
  induction a as [|x a IH]; intros b Ha Hb Hp; [apply Permutation_nil in Hp; auto|].
  destruct b as [|y b]; [apply Permutation_sym, Permutation_nil in Hp; discriminate|].
  inversion Ha as [|? ? Ha' HFa]; subst. inversion Hb as [|? ? Hb' HFb]; subst. rewrite Forall_forall in HFa, HFb.
  assert (x = y).
  { destruct (Permutation_in x Hp (or_introl eq_refl)) as [E|E]; [auto|]. destruct (Permutation_in y (Permutation_sym Hp) (or_introl eq_refl)) as [E'|E']; [auto|].
    apply earlier_antisym; [apply HFa; exact E'|apply HFb; exact E]. }
  subst y. f_equal. apply IH; [assumption..|]. exact (Permutation_cons_inv Hp).
Qed.

(** * the loops *)
Section Loop.
  Variables (sip : N -> N) (ord : nat -> forall A, list A -> list A).
  Hypothesis Ho : any_order ord.

  Definition key (l : list N) : N := hv sip (sorted_set l).
  Definition k_step (acc : dict N repeat_set) (p : repeat_set * list N) : dict N repeat_set :=
    if dmem N.eq_dec acc (key (snd p)) then acc else dset N.eq_dec acc (key (snd p)) (fst p).
  Definition good (trace : list N) (s : sub_array) : Prop :=
    sa_first_pos s + sa_length s <= length trace /\ hashable sip (sorted_set (block trace s)).
  Definition entry (index : nat) (trace : list N) (s : sub_array) : repeat_set * list N :=
    (mkRS (sa_first_pos s) (sa_length s) index, piece trace (sa_first_pos s) (sa_length s)).

  Lemma range_of_err trace a b e : SufModel.range_of trace a b = Err e -> e = AssertionErr.
  Proof. unfold SufModel.range_of. destruct (_ && _); [discriminate|]. intros [= <-]. reflexivity. Qed.

  Lemma repeat_step_ok index trace acc s :
    match r_repeat_step sip ord index trace acc s with
    | Ok acc' => good trace s /\ acc' = k_step acc (entry index trace s)
    | Err e => e = AssertionErr /\ ~ good trace s
    end.
  Proof.
    unfold r_repeat_step, good. destruct (le_lt_dec (sa_first_pos s + sa_length s) (length trace)) as [H|H].
    - rewrite range_of_piece by exact H. cbn [bind]. rewrite sorted_classes_eq by exact Ho. change (piece trace (sa_first_pos s) (sa_length s)) with (block trace s).
      destruct (poly_hash sip (sorted_set (block trace s))) as [h|e] eqn:E; cbn [bind].
      + split; [split; [exact H|exists h; exact E]|]. unfold k_step, entry, key, hv. cbn [fst snd]. change (piece trace (sa_first_pos s) (sa_length s)) with (block trace s). rewrite E. reflexivity.
      + split; [exact (poly_hash_err _ _ _ E)|]. intros [_ [h Eh]]. congruence.
    - destruct (SufModel.range_of trace (sa_first_pos s) (sa_first_pos s + sa_length s)) as [w|e] eqn:E; cbn [bind].
      + exfalso. unfold SufModel.range_of in E. destruct (Nat.leb_spec (sa_first_pos s + sa_length s) (length trace)); [lia|]. rewrite Bool.andb_false_r in E. discriminate.
      + split; [exact (range_of_err _ _ _ _ E)|]. lia.
  Qed.

  Lemma subs_loop index trace : forall subs acc,
    match loopM (r_repeat_step sip ord index trace) subs acc with
    | Ok acc' => Forall (good trace) subs /\ acc' = fold_left k_step (map (entry index trace) subs) acc
    | Err e => e = AssertionErr /\ ~ Forall (good trace) subs
    end.
  Proof.
    induction subs as [|s subs IH]; intros acc; [cbn; split; [constructor|reflexivity]|].
    change (loopM (r_repeat_step sip ord index trace) (s :: subs) acc) with (bind (r_repeat_step sip ord index trace acc s) (loopM (r_repeat_step sip ord index trace) subs)).
    pose proof (repeat_step_ok index trace acc s) as H. destruct (r_repeat_step sip ord index trace acc s) as [acc1|e]; cbn [bind].
    - destruct H as [H ->]. specialize (IH (k_step acc (entry index trace s))). destruct (loopM _ subs _) as [acc'|e].
      + destruct IH as [I1 ->]. split; [constructor; assumption|reflexivity].
      + destruct IH as [-> I]. split; [reflexivity|]. intros K. inversion K; contradiction.
    - destruct H as [-> H]. split; [reflexivity|]. intros K. inversion K; contradiction.
  Qed.

  Definition swap {A B} (p : A * B) : B * A := (snd p, fst p).
  Lemma all_loop : forall pairs index acc,
    match r_repeat_loop sip ord index pairs acc with
    | Ok acc' => Forall (fun p => Forall (good (fst p)) (snd p)) pairs /\ acc' = fold_left k_step (all_patterns index (map swap pairs)) acc
    | Err e => e = AssertionErr /\ ~ Forall (fun p => Forall (good (fst p)) (snd p)) pairs
    end.
  Proof.
    induction pairs as [|[trace subs] pairs IH]; intros index acc; [cbn; split; [constructor|reflexivity]|].
    cbn [r_repeat_loop map swap fst snd all_patterns]. pose proof (subs_loop index trace subs acc) as H.
    destruct (loopM (r_repeat_step sip ord index trace) subs acc) as [acc1|e]; cbn [bind].
    - destruct H as [H ->]. specialize (IH (S index) (fold_left k_step (map (entry index trace) subs) acc)).
      destruct (r_repeat_loop sip ord (S index) pairs _) as [acc'|e].
      + destruct IH as [I1 ->]. split; [constructor; assumption|]. change (map (fun s => (mkRS (sa_first_pos s) (sa_length s) index, piece trace (sa_first_pos s) (sa_length s))) subs) with (map (entry index trace) subs). rewrite fold_left_app. reflexivity.
      + destruct IH as [-> I]. split; [reflexivity|]. intros K. inversion K; contradiction.
    - destruct H as [-> H]. split; [reflexivity|]. intros K. inversion K; contradiction.
  Qed.

  (** the first pattern of each hash *)
  Fixpoint gfirsts (seen : list N) (l : list (repeat_set * list N)) : list (repeat_set * list N) :=
    match l with
    | [] => []
    | p :: r => if in_dec N.eq_dec (key (snd p)) seen then gfirsts seen r else p :: gfirsts (key (snd p) :: seen) r
    end.
  Lemma gfirsts_perm l : forall s s', (forall x, In x s <-> In x s') -> gfirsts s l = gfirsts s' l.
  Proof.
    induction l as [|p l IH]; intros s s' H; [reflexivity|]. cbn. destruct (in_dec N.eq_dec (key (snd p)) s) as [Hs|Hs], (in_dec N.eq_dec (key (snd p)) s') as [Hs'|Hs'].
    - apply IH; exact H. - exfalso; apply Hs', H, Hs. - exfalso; apply Hs, H, Hs'.
    - f_equal. apply IH. intros x. cbn. rewrite H. tauto.
  Qed.
  Lemma fold_k l : forall acc, dvalues (fold_left k_step l acc) = dvalues acc ++ map fst (gfirsts (dkeys acc) l).
  Proof.
    induction l as [|p l IH]; intros acc; [cbn; rewrite app_nil_r; reflexivity|]. cbn [fold_left gfirsts]. rewrite IH. unfold k_step, dmem.
    destruct (in_dec N.eq_dec (key (snd p)) (dkeys acc)) as [Hin|Hin].
    - assert (Hx : exists v, dget N.eq_dec acc (key (snd p)) = Some v) by (apply (dget_Some_key N.eq_dec); exact Hin). destruct Hx as [v ->]. reflexivity.
    - rewrite (proj2 (dget_None N.eq_dec acc (key (snd p))) Hin). rewrite dset_fresh_N by exact Hin. unfold dvalues, dkeys. rewrite !map_app. cbn [map fst snd].
      rewrite <- app_assoc. cbn. do 2 f_equal. f_equal. apply gfirsts_perm. intros x. rewrite in_app_iff. cbn. tauto.
  Qed.
  Lemma in_gfirsts l : forall seen x, In x (gfirsts seen l) <-> exists p q, l = p ++ x :: q /\ ~ In (key (snd x)) seen /\ forall y, In y p -> key (snd y) <> key (snd x).
  Proof.
    induction l as [|y l IH]; intros seen x; cbn [gfirsts].
    - split; [intros []|intros [p [q [E _]]]; destruct p; discriminate].
    - destruct (in_dec N.eq_dec (key (snd y)) seen) as [Hs|Hs].
      + rewrite IH. split.
        * intros [p [q [-> [H1 H2]]]]. exists (y :: p), q. split; [reflexivity|]. split; [exact H1|]. intros z [<-|Hz]; [congruence|apply H2; exact Hz].
        * intros [p [q [E [H1 H2]]]]. destruct p as [|z p]; cbn in E; injection E as -> ->; [contradiction|]. exists p, q. split; [reflexivity|]. split; [exact H1|]. intros w Hw. apply H2; right; exact Hw.
      + cbn [In]. rewrite IH. split.
        * intros [<-|[p [q [-> [H1 H2]]]]].
          -- exists [], l. split; [reflexivity|]. split; [exact Hs|intros z []].
          -- exists (y :: p), q. split; [reflexivity|]. split; [intros H; apply H1; right; exact H|]. intros z [<-|Hz]; [intros E; apply H1; left; exact E|apply H2; exact Hz].
        * intros [p [q [E [H1 H2]]]]. destruct p as [|z p]; cbn in E; injection E as -> ->; [left; reflexivity|]. right. exists p, q. split; [reflexivity|].
          split; [intros [H|H]; [apply (H2 z (or_introl eq_refl)); exact H|contradiction]|]. intros w Hw. apply H2; right; exact Hw.
  Qed.
  Lemma gfirsts_distinct l : forall seen, NoDup (map (fun p => key (snd p)) (gfirsts seen l)) /\ forall x, In x (gfirsts seen l) -> ~ In (key (snd x)) seen.
  Proof.
    induction l as [|y l IH]; intros seen; [split; [constructor|intros x []]|]. cbn [gfirsts]. destruct (in_dec N.eq_dec (key (snd y)) seen) as [Hs|Hs]; [apply IH|].
    destruct (IH (key (snd y) :: seen)) as [I1 I2]. split.
    - cbn. constructor; [|exact I1]. intros Hin. apply in_map_iff in Hin. destruct Hin as [x [E Hx]]. apply (I2 x Hx). left. symmetry; exact E.
    - intros x [<-|Hx]; [exact Hs|]. intros H. apply (I2 x Hx). right; exact H.
  Qed.
  Lemma gfirsts_covers l : forall seen y, In y l -> In (key (snd y)) seen \/ exists x, In x (gfirsts seen l) /\ key (snd x) = key (snd y).
  Proof.
    induction l as [|z l IH]; intros seen y Hy; [destruct Hy|]. cbn [gfirsts]. destruct (in_dec N.eq_dec (key (snd z)) seen) as [Hs|Hs].
    - destruct Hy as [<-|Hy]; [left; exact Hs|apply IH; exact Hy].
    - destruct Hy as [<-|Hy]; [right; exists z; split; [left; reflexivity|reflexivity]|].
      destruct (IH (key (snd z) :: seen) y Hy) as [[H|H]|[x [H1 H2]]].
      + right. exists z. split; [left; reflexivity|exact H].
      + left; exact H.
      + right. exists x. split; [right; exact H1|exact H2].
  Qed.

  Lemma swap_combine {A B} : forall (l : list A) (m : list B), map swap (combine l m) = combine m l.
  Proof. induction l as [|x l IH]; intros [|y m]; cbn; [reflexivity..|]. rewrite IH. reflexivity. Qed.

  Lemma in_all_patterns : forall pairs index x, In x (all_patterns index pairs) <-> exists k subs trace s, nth_error pairs k = Some (subs, trace) /\ In s subs /\ x = entry (index + k) trace s.
  Proof.
    induction pairs as [|[subs trace] pairs IH]; intros index x; cbn [all_patterns].
    - split; [intros []|intros [k [? [? [? [H _]]]]]; destruct k; discriminate].
    - rewrite in_app_iff, in_map_iff, IH. split.
      + intros [[s [<- Hs]]|[k [subs' [trace' [s [H1 [H2 ->]]]]]]].
        * exists 0, subs, trace, s. split; [reflexivity|]. split; [exact Hs|]. rewrite Nat.add_0_r. reflexivity.
        * exists (S k), subs', trace', s. split; [exact H1|]. split; [exact H2|]. f_equal. lia.
      + intros [[|k] [subs' [trace' [s [H1 [H2 ->]]]]]]; cbn in H1.
        * injection H1 as -> ->. left. exists s. split; [rewrite Nat.add_0_r; reflexivity|exact H2].
        * right. exists k, subs', trace', s. split; [exact H1|]. split; [exact H2|]. f_equal. lia.
  Qed.
  Lemma nth_combine {A B} : forall (l : list A) (m : list B) k x y, nth_error (combine l m) k = Some (x, y) <-> nth_error l k = Some x /\ nth_error m k = Some y.
  Proof.
    induction l as [|a l IH]; intros [|b m] [|k] x y; cbn; try (split; [discriminate|intros [? ?]; discriminate]); [|apply IH].
    split; [intros [= -> ->]; split; reflexivity|intros [[= ->] [= ->]]; reflexivity].
  Qed.

  Lemma good_iff log patterns : Forall (fun p => Forall (good (fst p)) (snd p)) (combine log patterns) <-> within log patterns /\ sets_hashable sip log patterns.
  Proof.
    rewrite Forall_forall. split.
    - intros H. split.
      + intros k trace subs s H1 H2 H3. assert (Hin : In (trace, subs) (combine log patterns)) by (apply nth_error_In with k; apply nth_combine; split; assumption).
        specialize (H _ Hin). cbn in H. rewrite Forall_forall in H. apply (H s H3).
      + intros x l Hx Hi Hs. apply in_all_patterns in Hx. destruct Hx as [k [subs [trace [s [H1 [H2 ->]]]]]].
        apply nth_combine in H1. destruct H1 as [H1 H1']. assert (Hin : In (trace, subs) (combine log patterns)) by (apply nth_error_In with k; apply nth_combine; split; assumption).
        specialize (H _ Hin). cbn in H. rewrite Forall_forall in H. destruct (H s H2) as [_ Hh].
        replace l with (sorted_set (block trace s)); [exact Hh|]. apply sorted_ext; [apply sorted_set_sorted|exact Hi|]. intros y. rewrite in_sorted_set. symmetry. apply Hs.
    - intros [Hw Hh] [trace subs] Hin. cbn [fst snd]. apply Forall_forall. intros s Hs. apply In_nth_error in Hin. destruct Hin as [k Hk]. apply nth_combine in Hk. destruct Hk as [K1 K2].
      split; [apply (Hw k trace subs s K1 K2 Hs)|]. apply (Hh (entry (0 + k) trace s)); [|apply sorted_set_sorted|intros y; apply in_sorted_set].
      apply in_all_patterns. exists k, subs, trace, s. split; [apply nth_combine; split; assumption|]. split; [exact Hs|reflexivity].
  Qed.

  Lemma build_cases log patterns :
    match r_build_repeat_sets sip ord log patterns with
    | Ok l => (within log patterns /\ sets_hashable sip log patterns) /\ StronglySorted earlier l /\ Permutation l (map fst (gfirsts [] (all_patterns 0 (combine patterns log))))
    | Err e => e = AssertionErr /\ ~ (within log patterns /\ sets_hashable sip log patterns)
    end.
  Proof.
    unfold r_build_repeat_sets. pose proof (all_loop (combine log patterns) 0 []) as H.
    destruct (r_repeat_loop sip ord 0 (combine log patterns) []) as [d|e]; cbn [bind]; rewrite good_iff in H; [|exact H]. destruct H as [H ->]. split; [exact H|]. split; [apply sort_rs_sorted|].
    rewrite sort_rs_perm, (Ho 1 _ _), fold_k, swap_combine. reflexivity.
  Qed.

  Lemma key_same_set x y : same_set x y -> key x = key y.
  Proof. intros H. unfold key. f_equal. apply sorted_set_same. exact H. Qed.
  Lemma key_apart log patterns x y : sets_hashable sip log patterns -> sets_apart sip log patterns ->
    In x (all_patterns 0 (combine patterns log)) -> In y (all_patterns 0 (combine patterns log)) -> key (snd x) = key (snd y) -> same_set (snd x) (snd y).
  Proof.
    intros Hh Ha Hx Hy E. apply sorted_set_same. 
    assert (S1 : forall l, same_set (sorted_set l) l) by (intros l z; apply in_sorted_set).
    apply (Ha x y); try assumption; try apply sorted_set_sorted; try apply S1. apply hv_eq; [apply (Hh x)|apply (Hh y)|exact E]; try assumption; try apply sorted_set_sorted; apply S1.
  Qed.

  Lemma sets_total_proof log patterns : within log patterns /\ sets_hashable sip log patterns <-> exists l, r_build_repeat_sets sip ord log patterns = Ok l.
  Proof.
    pose proof (build_cases log patterns) as H. destruct (r_build_repeat_sets sip ord log patterns) as [l|e].
    - split; [intros _; exists l; reflexivity|intros _; apply H].
    - split; [intros K; exfalso; apply H; exact K|intros [l E]; discriminate].
  Qed.

  Lemma sets_found_proof log patterns l : r_build_repeat_sets sip ord log patterns = Ok l ->
    StronglySorted earlier l /\
    exists l0, Permutation l (map fst l0) /\ incl l0 (all_patterns 0 (combine patterns log)) /\
      (forall i j x y, i <> j -> nth_error l0 i = Some x -> nth_error l0 j = Some y -> ~ same_set (snd x) (snd y)) /\
      (sets_apart sip log patterns -> forall x, In x l0 <-> exists p q, all_patterns 0 (combine patterns log) = p ++ x :: q /\ forall y, In y p -> ~ same_set (snd y) (snd x)).
  Proof.
    intros E. pose proof (build_cases log patterns) as H. rewrite E in H. destruct H as [[Hw Hh] [Hs Hp]]. split; [exact Hs|].
    exists (gfirsts [] (all_patterns 0 (combine patterns log))). split; [exact Hp|]. split; [|split].
    - intros x Hx. apply in_gfirsts in Hx. destruct Hx as [p [q [-> _]]]. apply in_or_app. right; left; reflexivity.
    - intros i j x y Hij Hi Hj Hss. destruct (gfirsts_distinct (all_patterns 0 (combine patterns log)) []) as [Hn _]. apply Hij.
      rewrite NoDup_nth_error in Hn. apply Hn; [rewrite map_length; apply nth_error_Some; congruence|]. rewrite !nth_error_map, Hi, Hj. cbn. f_equal. apply key_same_set. exact Hss.
    - intros Ha x. rewrite in_gfirsts. split.
      + intros [p [q [Ep [_ H]]]]. exists p, q. split; [exact Ep|]. intros y Hy Hss. apply (H y Hy). apply key_same_set. exact Hss.
      + intros [p [q [Ep H]]]. exists p, q. split; [exact Ep|]. split; [intros []|]. intros y Hy Hk. apply (H y Hy).
        apply (key_apart log patterns); try assumption; rewrite Ep; apply in_or_app; [left; exact Hy|right; left; reflexivity].
  Qed.

  Lemma sets_covered_proof log patterns l : sets_apart sip log patterns -> r_build_repeat_sets sip ord log patterns = Ok l ->
    forall p, In p (all_patterns 0 (combine patterns log)) ->
    exists r, In r l /\ exists t, In (r, t) (all_patterns 0 (combine patterns log)) /\ same_set t (snd p).
  Proof.
    intros Ha E p Hp. pose proof (build_cases log patterns) as H. rewrite E in H. destruct H as [[Hw Hh] [Hs HP]].
    destruct (gfirsts_covers _ [] p Hp) as [[]|[[r t] [H1 H2]]]. exists r. split.
    - apply (Permutation_in _ (Permutation_sym HP)). apply in_map_iff. exists (r, t). split; [reflexivity|exact H1].
    - exists t. assert (Hin : In (r, t) (all_patterns 0 (combine patterns log))) by (apply in_gfirsts in H1; destruct H1 as [a [b [-> _]]]; apply in_or_app; right; left; reflexivity).
      split; [exact Hin|]. apply (key_apart log patterns (r, t) p); assumption.
  Qed.

  Lemma gfirsts_legacy all : (forall x y, In x all -> In y all -> (key (snd x) = key (snd y) <-> set_hash (snd x) = set_hash (snd y))) -> forall l done s1 s2,
    (forall x, In x (done ++ l) -> In x all) ->
    (forall h, In h s1 <-> exists x, In x done /\ key (snd x) = h) -> (forall h, In h s2 <-> exists x, In x done /\ set_hash (snd x) = h) -> gfirsts s1 l = firsts s2 l.
  Proof.
    intros Hk. induction l as [|p l IH]; intros done s1 s2 Hin S1 S2; [reflexivity|]. cbn [gfirsts firsts].
    assert (Hp : In p all) by (apply Hin, in_or_app; right; left; reflexivity).
    assert (Hd : forall x, In x done -> In x all) by (intros x Hx; apply Hin, in_or_app; left; exact Hx).
    assert (E : In (key (snd p)) s1 <-> In (set_hash (snd p)) s2).
    { rewrite S1, S2. split; intros [x [Hx Ex]]; exists x; (split; [exact Hx|]); apply (Hk x p (Hd x Hx) Hp); exact Ex. }
    assert (Happ : forall x, In x ((done ++ [p]) ++ l) -> In x all) by (intros x Hx; apply Hin; rewrite <- app_assoc in Hx; exact Hx).
    destruct (in_dec N.eq_dec (key (snd p)) s1) as [H1|H1], (in_dec N.eq_dec (set_hash (snd p)) s2) as [H2|H2]; try tauto.
    - apply (IH (done ++ [p])); [exact Happ| |].
      + intros h. rewrite S1. split; [intros [x [Hx Ex]]; exists x; split; [apply in_or_app; left; exact Hx|exact Ex]|]. intros [x [Hx Ex]]. apply in_app_or in Hx. destruct Hx as [Hx|[<-|[]]]; [exists x; split; assumption|]. rewrite <- Ex. apply S1. exact H1.
      + intros h. rewrite S2. split; [intros [x [Hx Ex]]; exists x; split; [apply in_or_app; left; exact Hx|exact Ex]|]. intros [x [Hx Ex]]. apply in_app_or in Hx. destruct Hx as [Hx|[<-|[]]]; [exists x; split; assumption|]. rewrite <- Ex. apply S2. exact H2.
    - f_equal. apply (IH (done ++ [p])); [exact Happ| |].
      + intros h. cbn [In]. rewrite S1. split.
        * intros [<-|[x [Hx Ex]]]; [exists p; split; [apply in_or_app; right; left; reflexivity|reflexivity]|exists x; split; [apply in_or_app; left; exact Hx|exact Ex]].
        * intros [x [Hx Ex]]. apply in_app_or in Hx. destruct Hx as [Hx|[<-|[]]]; [right; exists x; split; assumption|left; exact Ex].
      + intros h. cbn [In]. rewrite S2. split.
        * intros [<-|[x [Hx Ex]]]; [exists p; split; [apply in_or_app; right; left; reflexivity|reflexivity]|exists x; split; [apply in_or_app; left; exact Hx|exact Ex]].
        * intros [x [Hx Ex]]. apply in_app_or in Hx. destruct Hx as [Hx|[<-|[]]]; [right; exists x; split; assumption|left; exact Ex].
  Qed.
  Lemma sets_legacy_proof log patterns l : collision_free log patterns -> sets_apart sip log patterns -> r_build_repeat_sets sip ord log patterns = Ok l ->
    Permutation l (create_repeat_sets log patterns).
  Proof.
    intros Hc Ha E. pose proof (build_cases log patterns) as H. rewrite E in H. destruct H as [[Hw Hh] [Hs HP]]. rewrite HP, create_repeat_sets_firsts.
    rewrite (gfirsts_legacy (all_patterns 0 (combine patterns log))) with (done := []) (s2 := []); [reflexivity| |intros x Hx; exact Hx| |].
    - intros x y Hx Hy. split; intros K.
      + unfold set_hash. f_equal. apply sorted_set_same. apply (key_apart log patterns); assumption.
      + apply key_same_set. apply sorted_set_same. apply (Hc x y); assumption.
    - intros h. split; [intros []|intros [x [[] _]]].
    - intros h. split; [intros []|intros [x [[] _]]].
  Qed.
End Loop.

Lemma sets_order_proof sip ord ord' log patterns : any_order ord -> any_order ord' -> r_build_repeat_sets sip ord log patterns = r_build_repeat_sets sip ord' log patterns.
Proof.
  intros Ho Ho'. pose proof (build_cases sip ord Ho log patterns) as H. pose proof (build_cases sip ord' Ho' log patterns) as H'.
  destruct (r_build_repeat_sets sip ord log patterns) as [l|e], (r_build_repeat_sets sip ord' log patterns) as [l'|e'].
  - f_equal. apply sorted_perm_eq; [apply H|apply H'|]. destruct H as [_ [_ ->]], H' as [_ [_ ->]]. reflexivity.
  - exfalso. apply H'. apply H.
  - exfalso. apply H. apply H'.
  - destruct H as [-> _], H' as [-> _]. reflexivity.
Qed.

(** * any hash confuses two classes *)
Lemma NoDup_or : forall l : list N, NoDup l \/ ~ NoDup l.
Proof.
  induction l as [|x l [IH|IH]]; [left; constructor| |right; intros H; inversion H; contradiction].
  destruct (in_dec N.eq_dec x l); [right; intros H; inversion H; contradiction|left; constructor; assumption].
Qed.
Definition gen (n : nat) : list N := map N.of_nat (seq 0 n).
Lemma pigeon (f : N -> N) (m : N) : (forall x, (f x < m)%N) -> exists a b, a <> b /\ (a <= m)%N /\ (b <= m)%N /\ f a = f b.
Proof.
  intros Hf. set (n := N.to_nat m). set (l := map f (gen (S n))).
  destruct (NoDup_or l) as [Hn|Hn].
  - exfalso. assert (Hi : incl l (gen n)).
    { intros y Hy. apply in_map_iff in Hy. destruct Hy as [x [<- _]]. apply in_map_iff. exists (N.to_nat (f x)). split; [apply N2Nat.id|]. apply in_seq. specialize (Hf x). unfold n. lia. }
    apply NoDup_incl_length in Hi; [|exact Hn]. unfold l, gen in Hi. rewrite !map_length, !seq_length in Hi. lia.
  - assert (Hd : exists i j x y, i < j /\ nth_error (gen (S n)) i = Some x /\ nth_error (gen (S n)) j = Some y /\ f x = f y).
    { unfold l in Hn. clear -Hn. revert Hn. generalize (gen (S n)). clear. induction l as [|a l IH]; intros Hn; [exfalso; apply Hn; constructor|].
      destruct (in_dec N.eq_dec (f a) (map f l)) as [Hin|Hin].
      - apply in_map_iff in Hin. destruct Hin as [y [Ey Hy]]. destruct (In_nth_error _ _ Hy) as [j Hj]. exists 0, (S j), a, y. split; [lia|]. split; [reflexivity|]. split; [exact Hj|symmetry; exact Ey].
      - destruct IH as [i [j [x [y [H1 [H2 [H3 H4]]]]]]]; [intros K; apply Hn; cbn; constructor; assumption|]. exists (S i), (S j), x, y. split; [lia|]. split; [exact H2|]. split; [exact H3|exact H4]. }
    destruct Hd as [i [j [x [y [H1 [H2 [H3 H4]]]]]]].
    assert (G : forall k z, nth_error (gen (S n)) k = Some z -> z = N.of_nat k /\ (z <= m)%N).
    { intros k z Hz. unfold gen in Hz. rewrite nth_error_map in Hz. destruct (nth_error (seq 0 (S n)) k) as [s|] eqn:Es; [|discriminate].
      assert (Hk : k < S n) by (rewrite <- (seq_length (S n) 0); apply nth_error_Some; congruence).
      assert (Hs : s = k). { rewrite <- (nth_error_nth _ _ 0 Es). rewrite seq_nth by exact Hk. reflexivity. }
      subst s. cbn [option_map] in Hz. injection Hz as <-. split; [reflexivity|]. unfold n in Hk. lia. }
    destruct (G i x H2) as [-> Gi], (G j y H3) as [-> Gj]. exists (N.of_nat i), (N.of_nat j). split; [lia|]. split; [exact Gi|]. split; [exact Gj|exact H4].
Qed.

Lemma confused_proof sip ord : any_order ord ->
  exists a b, a <> b /\ (a <= poly_mod)%N /\ (b <= poly_mod)%N /\
    (r_build_repeat_sets sip ord [[a; b]] [[mkSub 0 1; mkSub 1 1]] = Err AssertionErr \/
     r_build_repeat_sets sip ord [[a; b]] [[mkSub 0 1; mkSub 1 1]] = Ok [mkRS 0 1 0]).
Proof.
  intros Ho.
  assert (Hlt : forall x, (hv sip [x] < poly_mod)%N).
  { intros x. unfold hv. destruct (poly_hash_one sip x) as [->|[h [-> H]]]; [reflexivity|exact H]. }
  destruct (pigeon (fun x => hv sip [x]) poly_mod Hlt) as [a [b [Hab [Ha [Hb E]]]]]. exists a, b. split; [exact Hab|]. split; [exact Ha|]. split; [exact Hb|].
  pose proof (build_cases sip ord Ho [[a; b]] [[mkSub 0 1; mkSub 1 1]]) as H.
  destruct (r_build_repeat_sets sip ord [[a; b]] [[mkSub 0 1; mkSub 1 1]]) as [l|e]; [right|left; destruct H as [-> _]; reflexivity].
  destruct H as [_ [_ HP]]. f_equal.
  assert (K : map fst (gfirsts sip [] (all_patterns 0 (combine [[mkSub 0 1; mkSub 1 1]] [[a; b]]))) = [mkRS 0 1 0]).
  { change (all_patterns 0 (combine [[mkSub 0 1; mkSub 1 1]] [[a; b]])) with [(mkRS 0 1 0, [a]); (mkRS 1 1 0, [b])]. cbn [gfirsts snd].
    destruct (in_dec N.eq_dec (key sip [a]) []) as [[]|_]. unfold key. change (sorted_set [a]) with [a]. change (sorted_set [b]) with [b].
    destruct (in_dec N.eq_dec (hv sip [b]) [hv sip [a]]) as [_|Hn]; [reflexivity|]. exfalso. apply Hn. left. exact E. }
  rewrite K in HP. apply Permutation_sym, Permutation_length_1_inv in HP. exact HP.
Qed.
