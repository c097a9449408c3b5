(** The repeats of a log, and what the reported words of a single trace are in terms of repeats. *)
From Coq Require Import Permutation Sorting.Sorted.
From Verif Require Import Py PyFacts ReplayModel RInfoModel RInfoSpec SufModel SufSpec SufProofs1 SufProofs2 SufProofs3 SufProofs4 SufProofs5 SufProofs6 SufProofs7 SufProofs8 SufProofs9.

Section Merged.
  Variable log : list (list N).
  Notation T := (merged log).
  Variable ord : nat -> forall A : Type, list A -> list A.
  Hypothesis O : any_order ord.

  Lemma offset_split l1 w l2 : log = l1 ++ w :: l2 -> offset log (length l1) = length (merged l1) /\ nth (length l1) log [] = w /\ length l1 < length log.
  Proof.
    intros ->. unfold offset. rewrite firstn_app, firstn_all, Nat.sub_diag. cbn [firstn]. rewrite app_nil_r, nth_middle, app_length. cbn. conj; auto. lia.
  Qed.
  Lemma log_split t : t < length log -> exists l1 l2, log = l1 ++ nth t log [] :: l2 /\ length l1 = t.
  Proof. intros H. destruct (nth_split log [] H) as (l1 & l2 & E1 & E2). eauto. Qed.
  (** A word without separators lies within one trace. *)
  Lemma within a p : a <> [] -> occurs T (map Some a) p -> exists t i, t < length log /\ p = offset log t + i /\ occurs (nth t log []) a i.
  Proof.
    intros Ha H. pose proof (occurs_bound _ _ _ H) as HL. rewrite map_length in HL. assert (0 < length a) by (destruct a; cbn; [ easy | lia ]).
    destruct (decompose log p ltac:(lia)) as (l1 & w & l2 & i & E & Ep & Hi). destruct (offset_split l1 w l2 E) as (F1 & F2 & F3).
    exists (length l1), i. rewrite F1, F2. conj; auto. apply occurs_prefix in H. destruct H as (_ & HP). apply occurs_prefix. split; [ easy | ].
    rewrite E, merged_app, merged_cons, Ep, skipn_app, skipn_all2 in HP by lia. cbn [app] in HP. replace (length (merged l1) + i - length (merged l1)) with i in HP by lia.
    rewrite skipn_app, map_length in HP. replace (i - length w) with 0 in HP by lia. cbn [skipn] in HP. rewrite skipn_map in HP. revert HP. generalize (skipn i w). intros u.
    clear. revert u. induction a as [|x a IH]; intros u HP; [ apply prefix_nil | ]. destruct HP as (r & HP). destruct u as [|y u]; cbn in HP; [ easy | ]. injection HP as -> HP.
    destruct (IH u ltac:(now exists r)) as (r' & ->). now exists r'.
  Qed.
  Lemma without a t i : t < length log -> occurs (nth t log []) a i -> occurs T (map Some a) (offset log t + i).
  Proof.
    intros Ht (l & r & E & Hl). destruct (log_split t Ht) as (l1 & l2 & EL & Lt). destruct (offset_split l1 _ l2 EL) as (F1 & F2 & F3). subst t.
    exists (merged l1 ++ map Some l), (map Some r ++ None :: merged l2). rewrite F1, app_length, map_length, Hl. split; [ | easy ].
    rewrite EL at 1. rewrite merged_app, merged_cons, E, !map_app, <- !app_assoc. reflexivity.
  Qed.
  Lemma offset_inj t i t' i' : t < length log -> t' < length log -> i <= length (nth t log []) -> i' <= length (nth t' log []) -> offset log t + i = offset log t' + i' -> t = t' /\ i = i'.
  Proof.
    intros Ht Ht' Hi Hi' E. destruct (log_split t Ht) as (l1 & l2 & E1 & L1). destruct (log_split t' Ht') as (l1' & l2' & E2 & L2).
    destruct (offset_split _ _ _ E1) as (F1 & _). destruct (offset_split _ _ _ E2) as (F2 & _). rewrite L1 in F1. rewrite L2 in F2.
    pose proof (mw_info_at l1 _ l2 i 0 0 Hi) as M1. pose proof (mw_info_at l1' _ l2' i' 0 0 Hi') as M2. rewrite <- E1 in M1. rewrite <- E2 in M2. cbn [Nat.add] in *.
    rewrite <- F1, E, F2, M2 in M1. injection M1 as M1 _. split; [ congruence | ]. assert (Q : t = t') by congruence. rewrite Q in E. lia.
  Qed.

  Definition found_at (acc : list (list (nat * nat))) (t : nat) (x : nat * nat) : Prop := In x (nth t acc []).
  Lemma push_length : forall acc i r, length (push_at acc i r) = length acc.
  Proof. induction acc as [|x acc IH]; intros [|i] r; cbn; auto. Qed.
  Lemma push_nth : forall acc i r t, i < length acc -> nth t (push_at acc i r) [] = nth t acc [] ++ (if t =? i then [r] else []).
  Proof.
    induction acc as [|x acc IH]; intros i r t Hi; [ cbn in Hi; lia | ]. destruct i as [|i], t as [|t]; cbn [push_at nth Nat.eqb]; try easy; try (now rewrite app_nil_r).
    apply IH. cbn in Hi. lia.
  Qed.

  Variable ty : repeat_type.
  Definition merged_reported (k : nat) (a : list N) : Prop := reported (fun s => s < k /\ occurs T (map Some a) s) (left_of T) (right_of T a) ty.

  Lemma multi_lf s : lf (multi_slice log) s = left_of T s.
  Proof. unfold lf, left_of. destruct s; [ easy | ]. cbn [Nat.eqb sl_get multi_slice]. rewrite multi_get. f_equal. lia. Qed.
  Lemma merged_text_repeats : exists k, tail_at T k /\ exists l, slice_repeats ord ty (multi_slice log) = Ok l /\ StronglySorted pair_le l /\ NoDup l /\
    (forall r, In r l -> exists a, a <> [] /\ fst r < k /\ occurs T (map Some a) (fst r) /\ snd r = fst r + length a /\ snd r < length T /\ merged_reported k a) /\
    (forall a, a <> [] -> merged_reported k a -> exists r, In r l /\ fst r < k /\ occurs T (map Some a) (fst r) /\ snd r = fst r + length a) /\
    (forall a r r', In r l -> In r' l -> occurs T (map Some a) (fst r) -> snd r = fst r + length a -> occurs T (map Some a) (fst r') -> snd r' = fst r' + length a -> r = r').
  Proof.
    destruct log as [|w0 log0] eqn:EL.
    - exists 0. split; [ split; [ easy | split; [ now left | lia ] ] | ]. exists []. conj; try easy; try constructor.
      intros a _ HR. destruct (reported_two _ _ _ _ HR) as (s & t & (Z & _) & _). lia.
    - rewrite <- EL in *. assert (Ne : log <> []) by (rewrite EL; easy). clear EL.
      destruct (text_repeats (multi_slice log) T (multi_fair log) (multi_text log) (multi_nonempty log Ne) (multi_end log Ne) ord O ty (multi_readable log)) as (k & K & l & L1 & L2 & L3 & L4 & L5 & L6).
      assert (X : forall a, reported (fun s => s < k /\ occurs T (map Some a) s) (lf (multi_slice log)) (fun s => sl_get (multi_slice log) (s + length a)) ty <-> merged_reported k a).
      { intros a. unfold merged_reported. split; apply reported_ext; intros s; try easy; intros _; cbn [sl_get multi_slice]; rewrite ?multi_get, ?multi_lf; reflexivity. }
      exists k. split; [ easy | ]. exists l. conj; auto.
      + intros r Hr. destruct (L4 r Hr) as (a & A1 & A2 & A3 & A4 & A5 & A6). exists a. conj; auto. now apply X.
      + intros a Ha HR. apply X in HR. auto.
  Qed.

  Theorem merged_repeats_proof : exists k acc, tail_at T k /\ from_merged_trace ord ty log = Ok acc /\ length acc = length log /\
    (forall t x, In x (nth t acc []) -> exists a, a <> [] /\ t < length log /\ occurs (nth t log []) a (fst x) /\ snd x = length a /\ offset log t + fst x < k /\ merged_reported k a) /\
    (forall a, a <> [] -> merged_reported k a -> exists t x, In x (nth t acc []) /\ occurs (nth t log []) a (fst x) /\ snd x = length a) /\
    (forall a t x t' x', In x (nth t acc []) -> In x' (nth t' acc []) -> occurs (nth t log []) a (fst x) -> snd x = length a ->
       occurs (nth t' log []) a (fst x') -> snd x' = length a -> t = t' /\ x = x').
  Proof.
    destruct merged_text_repeats as (k & K & l & L1 & L2 & L3 & L4 & L5 & L6). exists k.
    assert (Loop : forall l0 acc0, (forall r, In r l0 -> In r l) -> length acc0 = length log ->
      exists acc, loopM (fun acc r =>
            bind (unwrap (mw_info log 0 0 (fst r))) (fun fi =>
            bind (unwrap (snd fi)) (fun first =>
            bind (unwrap (mw_info log 0 0 (snd r))) (fun se =>
            let second := match snd se with Some i => i | None => length (nth (fst fi) log []) end in
            Ok (push_at acc (fst fi) (first, second)))))) l0 acc0 = Ok acc /\ length acc = length log /\
        forall t x, In x (nth t acc []) <-> In x (nth t acc0 []) \/ (t < length log /\ fst x < length (nth t log []) /\ snd x <= length (nth t log []) /\ In (offset log t + fst x, offset log t + snd x) l0)).
    { induction l0 as [|r l0 IH]; intros acc0 Hl Ha.
      - exists acc0. conj; auto. intros t x. split; [ auto | ]. intros [?|(_ & _ & _ & [])]. easy.
      - destruct (L4 r (Hl r (or_introl eq_refl))) as (a & A1 & A2 & A3 & A4 & A5 & A6). assert (0 < length a) by (destruct a; cbn; [ easy | lia ]).
        destruct (within a (fst r) A1 A3) as (t0 & i & T1 & T2 & T3). pose proof (occurs_bound _ _ _ T3) as T4.
        destruct (log_split t0 T1) as (l1 & l2 & E1 & E2). destruct (offset_split _ _ _ E1) as (F1 & _). rewrite E2 in F1.
        assert (M1 : mw_info log 0 0 (fst r) = Some (t0, Some i)).
        { rewrite T2, F1. pose proof (mw_info_at l1 (nth t0 log []) l2 i 0 0 ltac:(lia)) as M. cbn [Nat.add] in M. rewrite <- E1, E2 in M.
          rewrite M. now rewrite (proj2 (Nat.ltb_lt _ _)) by lia. }
        assert (M2 : mw_info log 0 0 (snd r) = Some (t0, if i + length a <? length (nth t0 log []) then Some (i + length a) else None)).
        { rewrite A4, T2, F1. pose proof (mw_info_at l1 _ l2 (i + length a) 0 0 T4) as M. cbn [Nat.add] in M. rewrite <- E1, E2 in M. rewrite <- Nat.add_assoc. exact M. }
        rewrite loopM_cons, M1. cbn [unwrap bind fst snd]. rewrite M2. cbn [unwrap bind fst snd].
        assert (E3 : match (if i + length a <? length (nth t0 log []) then Some (i + length a) else None) with Some i => i | None => length (nth t0 log []) end = i + length a).
        { destruct (i + length a <? length (nth t0 log [])) eqn:Q; [ easy | ]. apply Nat.ltb_ge in Q. lia. }
        rewrite E3. destruct (IH (push_at acc0 t0 (i, i + length a))) as (acc & I1 & I2 & I3); [ intros; apply Hl; now right | now rewrite push_length | ].
        exists acc. conj; auto. intros t x. rewrite I3, push_nth by lia. rewrite in_app_iff. split.
        + intros [[H1|H1]|(H1 & H2 & H3 & H4)]; [ auto | right | right; conj; auto; now right ].
          destruct (t =? t0) eqn:Et; [ | easy ]. apply Nat.eqb_eq in Et. subst t. destruct H1 as [<-|[]]. cbn [fst snd]. conj; auto; [ lia | ].
          left. destruct r as (s, e). cbn [fst snd] in *. f_equal; lia.
        + intros [H1|(H1 & H2 & H3 & [H4|H4])]; [ auto | left; right | right; auto ].
          subst r. cbn [fst snd] in *. destruct (offset_inj t (fst x) t0 i H1 T1 ltac:(lia) ltac:(lia) T2) as (-> & Ei). rewrite Nat.eqb_refl. left.
          destruct x as (x1, x2). cbn [fst snd] in *. f_equal; lia. }
    destruct (Loop l (repeat [] (length log)) ltac:(auto) ltac:(apply repeat_length)) as (acc & I1 & I2 & I3).
    exists (map (map sub_array) acc). assert (FM : from_merged_trace ord ty log = Ok (map (map sub_array) acc)).
    { unfold from_merged_trace. rewrite L1. unfold bind at 1. match goal with |- bind ?x _ = _ => assert (EX : x = Ok acc) by exact I1; rewrite EX end. reflexivity. }
    assert (J : forall t x, In x (nth t (map (map sub_array) acc) []) <->
      exists e, t < length log /\ fst x < length (nth t log []) /\ e <= length (nth t log []) /\ In (offset log t + fst x, offset log t + e) l /\ snd x = e - fst x).
    { intros t x. change (@nil (nat * nat)) with (map sub_array []) at 1. rewrite (map_nth (map sub_array)), in_map_iff. split.
      - intros ((s, e) & <- & H). apply I3 in H. destruct H as [H|(H1 & H2 & H3 & H4)].
        + exfalso. clear -H. revert t H. induction (length log) as [|m IH]; intros [|t] H; cbn in *; eauto.
        + exists e. cbn [sub_array fst snd] in *. auto.
      - intros (e & H1 & H2 & H3 & H4 & H5). exists (fst x, e). split; [ unfold sub_array; destruct x; cbn in *; congruence | ]. apply I3. right. auto. }
    assert (Jr : forall t x, In x (nth t (map (map sub_array) acc) []) -> exists a, a <> [] /\ t < length log /\ occurs (nth t log []) a (fst x) /\ snd x = length a /\ offset log t + fst x < k /\ merged_reported k a /\
       In (offset log t + fst x, offset log t + fst x + length a) l).
    { intros t x Hx. apply J in Hx. destruct Hx as (e & H1 & H2 & H3 & H4 & H5). destruct (L4 _ H4) as (a & A1 & A2 & A3 & A4 & A5 & A6). cbn [fst snd] in *.
      exists a. destruct (within a _ A1 A3) as (t' & i & T1 & T2 & T3). pose proof (occurs_bound _ _ _ T3).
      destruct (offset_inj t (fst x) t' i H1 T1 ltac:(lia) ltac:(lia) T2) as (<- & <-). conj; auto; [ lia | ]. now rewrite <- A4. }
    conj; auto.
    - now rewrite map_length.
    - intros t x Hx. destruct (Jr t x Hx) as (a & A). exists a. tauto.
    - intros a Ha HR. destruct (L5 a Ha HR) as (r & R1 & R2 & R3 & R4). destruct (within a _ Ha R3) as (t & i & T1 & T2 & T3). pose proof (occurs_bound _ _ _ T3). assert (0 < length a) by (destruct a; cbn; [ easy | lia ]).
      exists t, (i, length a). cbn [fst snd]. conj; auto. apply J. exists (i + length a). cbn [fst snd]. conj; auto; try lia. destruct r as (s, e). cbn [fst snd] in *. subst. now rewrite Nat.add_assoc.
    - intros a t x t' x' Hx Hx' O1 S1 O2 S2. destruct (Jr t x Hx) as (b & B1 & B2 & B3 & B4 & _ & _ & B5). destruct (Jr t' x' Hx') as (b' & C1 & C2 & C3 & C4 & _ & _ & C5).
      pose proof (L6 a _ _ B5 C5) as Q. cbn [fst snd] in Q. specialize (Q (without a t _ B2 O1) ltac:(lia) (without a t' _ C2 O2) ltac:(lia)). injection Q as Q _.
      pose proof (occurs_bound _ _ _ O1). pose proof (occurs_bound _ _ _ O2).
      destruct (offset_inj t (fst x) t' (fst x') B2 C2 ltac:(lia) ltac:(lia) Q) as (-> & E). split; [ easy | ]. destruct x, x'. cbn in *. congruence.
  Qed.
End Merged.

Lemma skip_skip {A} : forall (l : list A) m k, skipn k (skipn m l) = skipn (m + k) l.
Proof. induction l as [|x l IH]; intros [|m] k; cbn [skipn Nat.add]; rewrite ?skipn_nil; auto. Qed.

(** Reported words of a single trace. *)
Section Words.
  Context {A : Type}.
  Variable eqd : forall a b : A, {a = b} + {a <> b}.
  Variable w : list A.

  Lemma before_None s : s <= length w -> before w s = None -> s = 0.
  Proof. intros H E. destruct s as [|s]; [ easy | ]. cbn in E. apply nth_error_None in E. lia. Qed.
  Lemma after_None a s : occurs w a s -> after w a s = None -> s + length a = length w.
  Proof. intros H E. pose proof (occurs_bound _ _ _ H). unfold after in E. apply nth_error_None in E. lia. Qed.
  Lemma occurs_after a s x : occurs w a s -> after w a s = Some x <-> occurs w (a ++ [x]) s.
  Proof.
    intros H. pose proof (occurs_bound _ _ _ H) as HB. unfold after. rewrite (occurs_prefix _ (a ++ [x])). apply occurs_prefix in H. destruct H as (H1 & H2). split.
    - intros E. split; [ easy | ]. apply prefix_snoc; [ easy | ]. rewrite <- E. clear -H1. revert s H1. induction w as [|y u IH]; intros [|s] H; cbn in *; try easy; try lia. apply IH. lia.
    - intros (_ & E). apply app_snoc_prefix in E. destruct E as (_ & <-). clear -H1. revert s H1. induction w as [|y u IH]; intros [|s] H; cbn in *; try easy; try lia. apply IH. lia.
  Qed.
  Lemma occurs_before a s x : occurs w a s -> before w s = Some x <-> exists j, s = S j /\ occurs w (x :: a) j.
  Proof.
    intros (l & r & E & L). split.
    - intros H. destruct s as [|j]; [ easy | ]. cbn in H. exists j. split; [ easy | ]. destruct (exists_last (l := l)) as (l' & y & ->); [ intros ->; easy | ].
      rewrite app_length in L. cbn in L. rewrite E, <- app_assoc, nth_error_app2 in H by lia. replace (j - length l') with 0 in H by lia. cbn in H. injection H as ->.
      exists l', r. rewrite E, <- app_assoc. split; [ easy | lia ].
    - intros (j & -> & (l' & r' & E' & L')). cbn. rewrite E', nth_error_app2, L', Nat.sub_diag by lia. reflexivity.
  Qed.
  Lemma occurs_inside l a r j : occurs w (l ++ a ++ r) j -> occurs w a (j + length l).
  Proof. intros (l0 & r0 & -> & <-). exists (l0 ++ l), (r ++ r0). rewrite app_length, <- !app_assoc. easy. Qed.
  Lemma inside_before l x a r j : occurs w ((l ++ [x]) ++ a ++ r) j -> before w (j + length (l ++ [x])) = Some x.
  Proof.
    intros H. apply (occurs_before a); [ now apply (occurs_inside _ _ r) | ]. exists (j + length l). split; [ rewrite app_length; cbn; lia | ].
    apply (occurs_inside l (x :: a) r). now rewrite <- app_assoc in H.
  Qed.
  Lemma inside_after l a x r j : occurs w (l ++ a ++ x :: r) j -> after w a (j + length l) = Some x.
  Proof.
    intros H. apply occurs_after; [ now apply (occurs_inside _ _ (x :: r)) | ]. apply (occurs_inside l (a ++ [x]) r). now rewrite <- app_assoc.
  Qed.

  Lemma maximal_proof a : reported (occurs w a) (before w) (after w a) MaximalRepeat -> maximal_repeat w a.
  Proof.
    intros (s & t & D1 & D2 & D3 & D4). exists s, t. assert (Hne : s <> t) by (intros ->; easy). conj; auto.
    destruct D4 as [D4|D4]; [ | apply not_eq_sym; now apply D4 ].
    rewrite D4. intros E. symmetry in E. pose proof (occurs_bound _ _ _ D1). pose proof (occurs_bound _ _ _ D2). apply before_None in D4, E; lia.
  Qed.
  (** One more element on a side when two positions agree there. *)
  Lemma same_after a s t : occurs w a s -> occurs w a t -> s <> t -> after w a s = after w a t -> exists x, repeats w (a ++ [x]).
  Proof.
    intros Hs Ht Hne E. destruct (after w a s) as [x|] eqn:Es.
    - exists x, s, t. conj; auto; apply occurs_after; auto.
    - symmetry in E. apply after_None in Es, E; auto. lia.
  Qed.
  Lemma same_before a s t : occurs w a s -> occurs w a t -> s <> t -> before w s = before w t -> before w s <> None -> exists x, repeats w (x :: a).
  Proof.
    intros Hs Ht Hne E Hn. destruct (before w s) as [x|] eqn:Es; [ | easy ]. symmetry in E.
    apply (occurs_before a s x Hs) in Es. apply (occurs_before a t x Ht) in E. destruct Es as (j & -> & J). destruct E as (j' & -> & J'). exists x, j, j'. conj; auto.
  Qed.
  Lemma super_proof a : reported (occurs w a) (before w) (after w a) SuperMaximalRepeat <-> super_maximal_repeat w a.
  Proof.
    cbn [reported]. split.
    - intros ((s & t & R1 & R2 & R3) & H). split; [ exists s, t; auto | ]. intros b (l & r & ->) HL (i & j & I1 & I2 & I3).
      destruct (H (i + length l) (j + length l)) as (H1 & H2); try (now apply (occurs_inside _ _ r)); [ lia | ].
      destruct r as [|x r]; [ | now rewrite (inside_after _ _ _ _ _ I1), (inside_after _ _ _ _ _ I2) in H1 ].
      destruct (exists_last (l := l)) as (l' & x & ->); [ intros ->; rewrite app_nil_r in HL; cbn in HL; lia | ].
      rewrite (inside_before _ _ _ _ _ I1), (inside_before _ _ _ _ _ I2) in H2. destruct H2 as [H2|H2]; easy.
    - intros ((i & j & R1 & R2 & R3) & H). split; [ exists i, j; auto | ]. intros s t Hs Ht Hne. split.
      + intros E. destruct (same_after a s t Hs Ht Hne E) as (x & Q). apply (H (a ++ [x])); auto; [ exists [], [x]; easy | rewrite app_length; cbn; lia ].
      + destruct (before w s) as [y|] eqn:Es; [ left | now right ]. intros E. destruct (same_before a s t Hs Ht Hne ltac:(congruence) ltac:(congruence)) as (x & Q).
        apply (H (x :: a)); [ exists [x], []; cbn; now rewrite app_nil_r | cbn; lia | exact Q ].
  Qed.
  Lemma near_proof a : reported (occurs w a) (before w) (after w a) NearSuperMaximalRepeat -> near_super_maximal_repeat w a.
  Proof.
    cbn [reported]. intros (D & s & S1 & S2 & S3). split; [ now apply maximal_proof | ]. exists s. split; [ easy | ]. intros b j HL (i1 & i2 & I1 & I2 & I3) Hj (C1 & C2).
    assert (Ex : exists i, occurs w b i /\ i <> j) by (destruct (Nat.eq_dec i1 j) as [->|]; [ exists i2 | exists i1 ]; auto). destruct Ex as (i & Hi & Hne).
    assert (Eb : exists l r, b = l ++ a ++ r /\ length l = s - j).
    { destruct Hj as (p & q & E & Lp). destruct S1 as (p' & q' & E' & Lp'). exists (firstn (s - j) b), (skipn (s - j + length a) b).
      assert (firstn (length a) (skipn (s - j) b) = a).
      { assert (Q : skipn s w = a ++ q') by (rewrite E', skipn_app, skipn_all2, Lp', Nat.sub_diag by lia; easy).
        assert (Q2 : skipn s w = skipn (s - j) b ++ q). { rewrite E, skipn_app, skipn_all2 by lia. cbn. rewrite Lp, skipn_app. replace (s - j - length b) with 0 by lia. reflexivity. }
        rewrite Q in Q2. apply (f_equal (firstn (length a))) in Q2. rewrite firstn_app, firstn_all, Nat.sub_diag, firstn_app in Q2. cbn [firstn] in Q2. rewrite app_nil_r in Q2.
        rewrite skipn_length in Q2. replace (length a - (length b - (s - j))) with 0 in Q2 by lia. cbn [firstn] in Q2. rewrite app_nil_r in Q2. now symmetry. }
      split; [ | rewrite firstn_length; lia ]. rewrite <- H at 1. rewrite <- (firstn_skipn (s - j) b) at 1. f_equal.
      rewrite <- (firstn_skipn (length a) (skipn (s - j) b)) at 1. f_equal. rewrite skip_skip. reflexivity. }
    destruct Eb as (l & r & -> & Ll). pose proof (occurs_inside _ _ _ _ Hi) as Ho. assert (Es : s = j + length l) by lia.
    destruct (S3 (i + length l) Ho ltac:(lia)) as (T1 & T2).
    destruct r as [|x r].
    - destruct (exists_last (l := l)) as (l' & x & ->); [ intros ->; rewrite app_nil_r in HL; cbn in HL; lia | ].
      apply T2. rewrite (inside_before _ _ _ _ _ Hi), Es. symmetry. apply (inside_before _ _ a []). exact Hj.
    - apply T1. rewrite (inside_after _ _ _ _ _ Hi), Es. symmetry. apply (inside_after l a x r). exact Hj.
  Qed.
  Lemma super_near_proof a : reported (occurs w a) (before w) (after w a) SuperMaximalRepeat -> reported (occurs w a) (before w) (after w a) NearSuperMaximalRepeat.
  Proof.
    cbn [reported]. intros ((s & t & R1 & R2 & R3) & H).
    assert (Bnd : forall u, occurs w a u -> u <= length w) by (intros u Hu; pose proof (occurs_bound _ _ _ Hu); lia).
    assert (Ex : exists s t, occurs w a s /\ occurs w a t /\ s <> t /\ before w s <> None).
    { destruct (before w s) eqn:E; [ exists s, t; conj; auto; congruence | ]. exists t, s. conj; auto. intros E'. apply before_None in E, E'; auto. lia. }
    clear s t R1 R2 R3. destruct Ex as (s & t & R1 & R2 & R3 & R4). split.
    - exists s, t. conj; auto; [ apply (H t s); auto | ]. right. intros u Hu Eu.
      destruct (Nat.eq_dec u t) as [->|Hut]; [ | destruct (H u t Hu R2 Hut); easy ]. destruct (H s t R1 R2 R3) as (_ & [Z|Z]); [ auto | easy ].
    - exists s. conj; auto. intros u Hu Hne. split; [ apply (H u s); auto | ]. destruct (H s u R1 Hu (not_eq_sym Hne)) as (_ & [Z|Z]); [ auto | easy ].
  Qed.
  Lemma twice_proof a i j : occurs w a i -> occurs w a j -> i <> j -> before w i <> before w j -> after w a i <> after w a j -> (forall u, occurs w a u -> u = i \/ u = j) ->
    reported (occurs w a) (before w) (after w a) MaximalRepeat.
  Proof. intros H1 H2 H3 H4 H5 H6. exists i, j. conj; auto. right. intros u Hu E. destruct (H6 u Hu) as [-> | ->]; congruence. Qed.

  (** Every word which repeats is part of a super maximal one. *)
  Lemma occurs_dec a s : {occurs w a s} + {~ occurs w a s}.
  Proof.
    destruct (le_dec s (length w)) as [H|H]; [ | right; rewrite occurs_prefix; tauto ].
    destruct (list_eq_dec eqd (firstn (length a) (skipn s w)) a) as [E|E].
    - left. apply occurs_prefix. split; [ easy | ]. exists (skipn (length a) (skipn s w)). rewrite <- E at 1. now rewrite firstn_skipn.
    - right. rewrite occurs_prefix. intros (_ & HP). apply prefix_firstn in HP. congruence.
  Qed.
  Lemma extend_proof : forall m a, repeats w a -> length w - length a <= m -> exists b, (exists l r, b = l ++ a ++ r) /\ super_maximal_repeat w b.
  Proof.
    induction m as [|m IH]; intros a H HL.
    - exfalso. destruct H as (i & j & H1 & H2 & H3). pose proof (occurs_bound _ _ _ H1). pose proof (occurs_bound _ _ _ H2). lia.
    - assert (Step : forall b, (exists l r, b = l ++ a ++ r) -> length a < length b -> repeats w b -> exists b, (exists l r, b = l ++ a ++ r) /\ super_maximal_repeat w b).
      { intros b (l & r & ->) Lb Hb. destruct (IH (l ++ a ++ r) Hb) as (c & (l' & r' & ->) & Hc).
        { destruct Hb as (i & j & H1 & _). pose proof (occurs_bound _ _ _ H1). lia. }
        exists (l' ++ (l ++ a ++ r) ++ r'). split; [ | easy ]. exists (l' ++ l), (r ++ r'). now rewrite <- !app_assoc. }
      set (ps := list_prod (seq 0 (S (length w))) (seq 0 (S (length w)))).
      set (bad := fun p => occurs w a (fst p) /\ occurs w a (snd p) /\ fst p <> snd p /\ (after w a (fst p) = after w a (snd p) \/ (before w (fst p) = before w (snd p) /\ before w (fst p) <> None))).
      assert (oeqd : forall x y : option A, {x = y} + {x <> y}) by (decide equality).
      assert (bd : forall p, {bad p} + {~ bad p}).
      { intros (s, t). unfold bad. cbn [fst snd]. destruct (occurs_dec a s); [ | right; tauto ]. destruct (occurs_dec a t); [ | right; tauto ].
        destruct (Nat.eq_dec s t); [ right; tauto | ]. destruct (oeqd (after w a s) (after w a t)); [ left; tauto | ].
        destruct (oeqd (before w s) (before w t)); [ | right; tauto ]. destruct (oeqd (before w s) None); [ right; tauto | left; tauto ]. }
      destruct (Exists_dec bad ps bd) as [X|X].
      + apply Exists_exists in X. destruct X as ((s, t) & _ & B1 & B2 & B3 & [B4|(B4 & B5)]); cbn [fst snd] in *.
        * destruct (same_after a s t B1 B2 B3 B4) as (x & Q). apply (Step (a ++ [x])); [ exists [], [x]; easy | rewrite app_length; cbn; lia | easy ].
        * destruct (same_before a s t B1 B2 B3 B4 B5) as (x & Q). apply (Step (x :: a)); [ exists [x], []; cbn; now rewrite app_nil_r | cbn; lia | easy ].
      + exists a. split; [ exists [], []; cbn; now rewrite app_nil_r | ]. apply super_proof. cbn [reported]. destruct H as (i & j & H1 & H2 & H3). split; [ exists i, j; auto | ].
        intros s t Hs Ht Hne. assert (NB : ~ bad (s, t)).
        { intros B. apply X. apply Exists_exists. exists (s, t). split; [ | easy ]. pose proof (occurs_bound _ _ _ Hs). pose proof (occurs_bound _ _ _ Ht). apply in_prod; apply in_seq; lia. }
        unfold bad in NB. cbn [fst snd] in NB. split; [ tauto | ]. destruct (oeqd (before w s) None); [ now right | left; tauto ].
  Qed.
End Words.
