(** The theorems about find_patterns and find_repeats. *)
From Coq Require Import Permutation Sorting.Sorted.
From Verif Require Import Py PyFacts ReplayModel RInfoModel RInfoSpec SufModel SufSpec SufProofs1 SufProofs2 SufProofs3 SufProofs4 SufProofs5 SufProofs6 SufProofs7 SufProofs8 SufProofs9 SufProofs10.

Lemma Forall2_mono {A B} (P Q : A -> B -> Prop) l m : (forall a b, P a b -> Q a b) -> Forall2 P l m -> Forall2 Q l m.
Proof. intros H. induction 1; constructor; auto. Qed.
Lemma tail_unique {A} (T : list A) k k' : tail_at T k -> tail_at T k' -> k = k'.
Proof.
  assert (G : forall k k', tail_at T k -> tail_at T k' -> ~ k < k').
  { intros j j' (_ & J2 & _) (J1' & _ & J3') Hlt. destruct J2 as [J2|(s & Hs & Ho)]; [ lia | ]. exact (J3' j Hlt s Hs Ho). }
  intros H H'. pose proof (G k k' H H'). pose proof (G k' k H' H). lia.
Qed.
Lemma occurs_from {A} (T a : list A) k i s : k <= i -> k <= length T -> occurs T a i -> occurs T (skipn k T) s -> occurs T a (s + (i - k)).
Proof.
  intros Hi Hk (l & r & E & L) (l' & r' & E' & L'). exists (l' ++ skipn k l), (r ++ r'). split.
  - assert (Q : skipn k T = skipn k l ++ a ++ r) by (rewrite E, skipn_app; replace (k - length l) with 0 by lia; reflexivity).
    rewrite Q in E'. rewrite E'. now rewrite <- !app_assoc.
  - rewrite app_length, skipn_length. lia.
Qed.
(** What begins in the tail begins before it too. *)
Lemma tail_lost {A} (T a : list A) k : tail_at T k -> a <> [] -> forall i, occurs T a i -> exists j, j < k /\ j <= i /\ occurs T a j.
Proof.
  intros (H1 & H2 & _) Ha. induction i as [i IH] using lt_wf_ind. intros Ho. destruct (Nat.lt_ge_cases i k) as [|G]; [ exists i; auto | ].
  destruct H2 as [->|(s & Hs & Hk)].
  - exfalso. pose proof (occurs_bound _ _ _ Ho). assert (0 < length a) by (destruct a; cbn; [ easy | lia ]). lia.
  - destruct (IH (s + (i - k)) ltac:(lia) (occurs_from T a k i s G H1 Ho Hk)) as (j & J1 & J2 & J3). exists j. conj; auto. lia.
Qed.

Section Log.
  Variable ord : nat -> forall A : Type, list A -> list A.
  Hypothesis O : any_order ord.

  Lemma merged_patterns_proof log p : p <> [] -> exists k r, tail_at (merged log) k /\
    bind (build_tree (multi_slice log)) (fun nodes => find_patterns (multi_slice log) ord nodes p) = Ok r /\
    match r with
    | Some l => StronglySorted pair_le l /\ NoDup l /\ (exists t i, t < length log /\ occurs (nth t log []) p i) /\
                forall x, In x l <-> snd x = fst x + length p /\ exists t i, t < length log /\ occurs (nth t log []) p i /\ fst x = offset log t + i /\ fst x < k
    | None => forall w i, In w log -> ~ occurs w p i
    end.
  Proof.
    intros Hp. destruct log as [|w0 log0] eqn:EL.
    - exists 0, None. split; [ split; [ easy | split; [ now left | lia ] ] | ]. split; [ | easy ]. destruct p; [ easy | reflexivity ].
    - rewrite <- EL in *. assert (Ne : log <> []) by (rewrite EL; easy). clear EL.
      destruct (text_patterns (multi_slice log) (merged log) (multi_fair log) (multi_text log) (multi_nonempty log Ne) ord O p) as (k & K & r & R1 & R2).
      exists k, r. conj; auto. destruct r as [l|].
      + destruct R2 as (A1 & A2 & A3 & A4). conj; auto.
        * destruct l as [|x l]; [ easy | ]. destruct (proj1 (A4 x) (or_introl eq_refl)) as ((_ & H) & _). destruct (within log p _ Hp H) as (t & i & T1 & T2 & T3). eauto.
        * intros x. rewrite A4. split.
          -- intros ((H1 & H2) & H3). split; [ easy | ]. destruct (within log p _ Hp H2) as (t & i & T1 & T2 & T3). exists t, i. auto.
          -- intros (H3 & t & i & T1 & T2 & T3 & T4). conj; auto. rewrite T3. now apply without.
      + intros w i Hw Ho. destruct (In_nth log w [] Hw) as (t & T1 & T2). rewrite <- T2 in Ho. pose proof (without log p t i T1 Ho) as H.
        assert (Hp' : map Some p <> []) by (now destruct p). destruct (tail_lost _ _ k K Hp' _ H) as (j & J1 & _ & J3). now apply (R2 j J1).
  Qed.

  Lemma all_traces_proof ty log : exists acc, find_repeats ord ty false log = Ok acc /\
    Forall2 (fun w l => names_words (fun a => reported (occurs w a) (before w) (after w a) ty) w l) log acc.
  Proof.
    cbn [find_repeats]. unfold from_all_traces. apply mapM_all. intros w _. destruct (single_repeats_proof w ord O ty) as (l & L1 & L2 & L3 & L4 & L5 & L6).
    rewrite L1. cbn [bind]. eexists. split; [ reflexivity | ].
    assert (Len : forall r, In r l -> fst r < snd r).
    { intros r Hr. destruct (L4 r Hr) as (a & A1 & A2 & A3 & _). destruct a; cbn in *; [ easy | lia ]. }
    assert (In' : forall x, In x (map sub_array l) <-> In (fst x, fst x + snd x) l /\ 0 < snd x).
    { intros x. rewrite in_map_iff. split.
      - intros ((s, e) & <- & H). pose proof (Len _ H). cbn [sub_array fst snd] in *. replace (s + (e - s)) with e by lia. split; [ easy | lia ].
      - intros (H & _). exists (fst x, fst x + snd x). split; [ | easy ]. destruct x as (s, m). unfold sub_array. cbn. f_equal. lia. }
    unfold names_words. conj.
    - clear -L2 Len. induction L2 as [|r l H IH HF]; cbn; [ constructor | ]. constructor; [ apply IH; intros; apply Len; now right | ].
      apply Forall_forall. intros x Hx. apply in_map_iff in Hx. destruct Hx as (r' & <- & Hr'). rewrite Forall_forall in HF. specialize (HF r' Hr').
      pose proof (Len r (or_introl eq_refl)). pose proof (Len r' (or_intror Hr')). unfold pair_le, sub_array in *. cbn. lia.
    - clear -L3 Len. induction L3 as [|r l H H2 IH]; cbn; constructor.
      + intros Hx. apply in_map_iff in Hx. destruct Hx as (r' & E & Hr'). pose proof (Len r (or_introl eq_refl)). pose proof (Len r' (or_intror Hr')).
        apply H. replace r with r'; [ easy | ]. destruct r as (s, e), r' as (s', e'). unfold sub_array in E. cbn in *. injection E as E1 E2. f_equal; lia.
      + apply IH. intros; apply Len; now right.
    - intros x Hx. apply In' in Hx. destruct Hx as (Hx & Hp). destruct (L4 _ Hx) as (a & A1 & A2 & A3 & A4). cbn [fst snd] in *. exists a. conj; auto. lia.
    - intros a Ha HR. destruct (L5 a Ha HR) as (r & R1 & R2 & R3). assert (0 < length a) by (destruct a; cbn; [ easy | lia ]). exists (fst r, length a). cbn [fst snd]. conj; auto.
      apply In'. cbn [fst snd]. split; [ | easy ]. rewrite <- R3. now destruct r.
    - intros a x y Hx Hy O1 O2 S1 S2. apply In' in Hx, Hy. destruct Hx as (Hx & _). destruct Hy as (Hy & _).
      pose proof (L6 a _ _ Hx Hy O1 ltac:(cbn; lia) O2 ltac:(cbn; lia)) as Q. injection Q as Q1 Q2. destruct x, y. cbn in *. f_equal; lia.
  Qed.

  Lemma names_iff (P Q : list N -> Prop) w l : (forall a, P a <-> Q a) -> names_words P w l -> names_words Q w l.
  Proof.
    intros H (A1 & A2 & A3 & A4 & A5). unfold names_words. conj; auto.
    - intros x Hx. destruct (A3 x Hx) as (a & B1 & B2 & B3 & B4). exists a. conj; auto. now apply H.
    - intros a Ha Q'. apply A4; auto. now apply H.
  Qed.
  Lemma cover_proof ty log : exists acc, find_repeats ord ty false log = Ok acc /\
    Forall2 (fun w l => forall b, b <> [] -> repeats w b -> exists x a, In x l /\ occurs w a (fst x) /\ snd x = length a /\ exists p q, a = p ++ b ++ q) log acc.
  Proof.
    destruct (all_traces_proof ty log) as (acc & A1 & A2). exists acc. split; [ easy | ]. clear A1. induction A2 as [|w l log acc H H2 IH]; constructor; auto.
    intros b Hb HR. destruct (extend_proof N.eq_dec w (length w) b HR ltac:(lia)) as (a & (p & q & Ea) & Ha). destruct H as (_ & _ & _ & H & _).
    apply super_proof in Ha. assert (Ha2 : reported (occurs w a) (before w) (after w a) ty).
    { pose proof (super_near_proof w a Ha) as Hn. destruct ty; [ apply Hn | exact Ha | exact Hn ]. }
    destruct (H a) as (x & X1 & X2 & X3); auto; [ | exists x, a; conj; eauto ]. subst a. destruct b; [ easy | ]. now destruct p.
  Qed.
End Log.
