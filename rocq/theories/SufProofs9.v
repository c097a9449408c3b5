(** The merged text of a log, and what the reported words are in terms of repeats. *)
From Coq Require Import Permutation Sorting.Sorted.
From Verif Require Import Py PyFacts ReplayModel RInfoModel RInfoSpec SufModel SufSpec SufProofs1 SufProofs2 SufProofs3 SufProofs4 SufProofs5 SufProofs6 SufProofs7 SufProofs8.

Lemma merged_app l1 l2 : merged (l1 ++ l2) = merged l1 ++ merged l2.
Proof. apply flat_map_app. Qed.
Lemma merged_cons w l : merged (w :: l) = map Some w ++ None :: merged l.
Proof. unfold merged. cbn [flat_map]. now rewrite <- app_assoc. Qed.
Lemma merged_length log : length (merged log) = list_sum (map (@length N) log) + length log.
Proof. induction log as [|w log IH]; [ easy | ]. rewrite merged_cons, app_length, map_length. cbn [length map list_sum fold_right]. rewrite IH. unfold list_sum. cbn. lia. Qed.

Lemma mw_info_at : forall l1 w l2 i b si, i <= length w ->
  mw_info (l1 ++ w :: l2) b si (b + length (merged l1) + i) = Some (si + length l1, if i <? length w then Some i else None).
Proof.
  induction l1 as [|x l1 IH]; intros w l2 i b si Hi; cbn [app mw_info].
  - cbn [merged flat_map length]. rewrite !Nat.add_0_r. destruct (i <? length w) eqn:E.
    + apply Nat.ltb_lt in E. rewrite (proj2 (Nat.ltb_lt _ _)) by lia. do 3 f_equal. lia.
    + apply Nat.ltb_ge in E. rewrite (proj2 (Nat.ltb_ge _ _)) by lia. rewrite (proj2 (Nat.eqb_eq _ _)) by lia. reflexivity.
  - rewrite merged_cons, app_length, map_length. cbn [length]. rewrite (proj2 (Nat.ltb_ge _ _)) by lia. rewrite (proj2 (Nat.eqb_neq _ _)) by lia.
    replace (b + (length x + S (length (merged l1))) + i) with (b + length x + 1 + length (merged l1) + i) by lia. rewrite IH by easy. do 2 f_equal. lia.
Qed.
Lemma mw_info_out : forall log b si p, length (merged log) <= p -> mw_info log b si (b + p) = None.
Proof.
  induction log as [|w log IH]; intros b si p H; [ easy | ]. rewrite merged_cons, app_length, map_length in H. cbn [length mw_info] in *.
  rewrite (proj2 (Nat.ltb_ge _ _)) by lia. rewrite (proj2 (Nat.eqb_neq _ _)) by lia. replace (b + p) with (b + length w + 1 + (p - length w - 1)) by lia. apply IH. lia.
Qed.
Lemma decompose : forall log p, p < length (merged log) -> exists l1 w l2 i, log = l1 ++ w :: l2 /\ p = length (merged l1) + i /\ i <= length w.
Proof.
  induction log as [|w log IH]; intros p H; [ cbn in H; lia | ]. rewrite merged_cons, app_length, map_length in H. cbn [length] in H.
  destruct (Nat.le_gt_cases p (length w)) as [L|L]; [ exists [], w, log, p; auto | ].
  destruct (IH (p - length w - 1) ltac:(lia)) as (l1 & u & l2 & i & -> & E & Hi). exists (w :: l1), u, l2, i. conj; auto.
  rewrite merged_cons, app_length, map_length. cbn [length]. lia.
Qed.
Lemma mw_get_at l1 w l2 i : i <= length w -> mw_get (l1 ++ w :: l2) (length (merged l1) + i) = nth_error w i.
Proof.
  intros H. unfold mw_get. pose proof (mw_info_at l1 w l2 i 0 0 H) as E0. cbn [Nat.add] in E0. rewrite E0. destruct (i <? length w) eqn:E.
  - now rewrite nth_middle.
  - apply Nat.ltb_ge in E. symmetry. now apply nth_error_None.
Qed.

Lemma seq_offset : forall m z off, seq (off + z) m = map (fun i => off + i) (seq z m).
Proof. induction m as [|m IH]; intros z off; [ easy | ]. cbn. f_equal. rewrite <- IH. f_equal. lia. Qed.

Section Multi.
  Variable log : list (list N).
  Notation sl := (multi_slice log).
  Notation T := (merged log).

  Lemma multi_len : sl_len sl = length T.
  Proof. now rewrite merged_length. Qed.
  Lemma multi_text : sub (sl_get sl) 0 (sl_len sl) = T.
  Proof.
    rewrite multi_len. cbn [sl_get multi_slice]. unfold sub. rewrite Nat.sub_0_r.
    assert (G : forall l2 l1, log = l1 ++ l2 -> map (mw_get log) (seq (length (merged l1)) (length (merged l2))) = merged l2).
    { induction l2 as [|w l2 IH]; intros l1 E; [ easy | ]. rewrite merged_cons at 1. rewrite app_length, map_length. cbn [length].
      replace (length w + S (length (merged l2))) with ((length w + 1) + length (merged l2)) by lia. rewrite seq_app, map_app.
      assert (M : length (merged l1) + (length w + 1) = length (merged (l1 ++ [w]))) by (rewrite merged_app, app_length, merged_cons, app_length, map_length; cbn; lia).
      rewrite M, IH by (now rewrite <- app_assoc). rewrite merged_cons. change (None :: merged l2) with ([None] ++ merged l2). rewrite app_assoc. f_equal.
      pose proof (single_text w) as ST. cbn [sl_get sl_len single_slice] in ST. rewrite <- ST. unfold sub. rewrite Nat.sub_0_r.
      rewrite <- (Nat.add_0_r (length (merged l1))) at 1. rewrite seq_offset, map_map. apply map_ext_in. intros i Hi. apply in_seq in Hi. rewrite E. apply mw_get_at. lia. }
    apply (G log []). reflexivity.
  Qed.
  Lemma multi_fair : fair sl.
  Proof. intros i j _ _ _. reflexivity. Qed.
  Lemma multi_end : log <> [] -> exists T', T = T' ++ [None].
  Proof.
    intros H. destruct (exists_last H) as (l & w & ->). rewrite merged_app, merged_cons. exists (merged l ++ map Some w). now rewrite <- app_assoc.
  Qed.
  Lemma multi_nonempty : log <> [] -> T <> [].
  Proof. intros H. destruct (multi_end H) as (T' & ->). now destruct T'. Qed.
  Lemma multi_get i : mw_get log i = nth i T None.
  Proof.
    destruct (Nat.lt_ge_cases i (length T)) as [L|L].
    - assert (E : nth_error T i = Some (mw_get log i)).
      { rewrite <- multi_text. rewrite sub_nth; [ easy | ]. rewrite multi_len. lia. }
      symmetry. now apply nth_error_nth.
    - rewrite nth_overflow by easy. unfold mw_get. pose proof (mw_info_out log 0 0 i L) as E. cbn [Nat.add] in E. now rewrite E.
  Qed.
  Lemma multi_part l1 w l2 i j : log = l1 ++ w :: l2 -> i <= j -> j <= length w ->
    sub (sl_get sl) (length (merged l1) + i) (length (merged l1) + j) = map Some (firstn (j - i) (skipn i w)).
  Proof.
    intros E H1 H2.
    assert (L : length (merged l1) + j <= sl_len sl) by (rewrite multi_len, E, merged_app, app_length, merged_cons, app_length, map_length; cbn; lia).
    rewrite (sub_firstn _ (sl_len sl)) by lia. rewrite multi_text. rewrite E at 1. rewrite merged_app, merged_cons, skipn_app.
    rewrite skipn_all2 by lia. cbn [app]. replace (length (merged l1) + i - length (merged l1)) with i by lia.
    rewrite skipn_app, map_length. rewrite firstn_app, skipn_length, map_length.
    replace (length (merged l1) + j - (length (merged l1) + i)) with (j - i) by lia. replace (j - i - (length w - i)) with 0 by lia. cbn [firstn]. rewrite app_nil_r.
    now rewrite skipn_map, firstn_map.
  Qed.
  Lemma multi_readable : readable sl.
  Proof.
    intros s e H1 H2. rewrite multi_len in H2. cbn [sl_sub multi_slice]. unfold mw_sub.
    destruct (decompose log s ltac:(lia)) as (l1 & w & l2 & i & E & Es & Hi). destruct (decompose log e H2) as (l1' & w' & l2' & j & E' & Ee & Hj).
    assert (M1 : mw_info log 0 0 s = Some (length l1, if i <? length w then Some i else None)) by (rewrite E, Es; apply (mw_info_at l1 w l2 i 0 0 Hi)).
    assert (M2 : mw_info log 0 0 e = Some (length l1', if j <? length w' then Some j else None)) by (rewrite E', Ee; apply (mw_info_at l1' w' l2' j 0 0 Hj)).
    assert (Sep : s <= length (merged l1) + length w -> length (merged l1) + length w < e -> In None (sub (sl_get sl) s e)).
    { intros A B. apply (nth_error_In _ (length (merged l1) + length w - s)). rewrite sub_nth by lia. f_equal. cbn [sl_get multi_slice].
      replace (s + (length (merged l1) + length w - s)) with (length (merged l1) + length w) by lia. rewrite E, mw_get_at by lia. now apply nth_error_None. }
    rewrite M1. destruct (i <? length w) eqn:Ei.
    - apply Nat.ltb_lt in Ei. rewrite M2. destruct (length l1 =? length l1') eqn:El; cbn [negb].
      + apply Nat.eqb_eq in El. assert (l1 = l1' /\ w = w') as (<- & <-).
        { rewrite E in E'. clear -E' El. revert l1' E' El. induction l1 as [|x l1 IH]; intros [|y l1'] E L; try easy; cbn in *; injection E as E1 E2; [ auto | ].
          destruct (IH l1' E2 ltac:(lia)). split; congruence. }
        assert (Ex : (match (if j <? length w then Some j else None) with Some x => x | None => length (nth (length l1) log []) end) = j).
        { destruct (j <? length w) eqn:Ej; [ easy | ]. apply Nat.ltb_ge in Ej. rewrite E, nth_middle. lia. }
        rewrite Ex, E, nth_middle. unfold range_of. rewrite (proj2 (Nat.leb_le i j)), (proj2 (Nat.leb_le j (length w))) by lia. cbn [andb bind].
        eexists. split; [ reflexivity | ]. rewrite Es, Ee, <- E. symmetry. apply (multi_part l1 w l2); auto; lia.
      + apply Nat.eqb_neq in El. exists None. split; [ easy | ]. apply Sep; [ lia | ].
        assert (LL : length l1 < length l1').
        { destruct (Nat.lt_ge_cases (length l1) (length l1')) as [|G]; [ easy | exfalso ].
          assert (P : exists x, l1 = l1' ++ w' :: x).
          { rewrite E in E'. clear -E' El G. revert l1' E' El G. induction l1 as [|x l1 IH]; intros [|y l1'] E L G; try easy; cbn in *; try lia; injection E as E1 E2.
            - exists l1. now subst.
            - destruct (IH l1' E2 ltac:(lia) ltac:(lia)) as (z & Z). exists z. congruence. }
          destruct P as (x & ->). rewrite merged_app, merged_cons, app_length, app_length, map_length in Es. cbn in Es. lia. }
        assert (P : exists x, l1' = l1 ++ w :: x).
        { rewrite E in E'. symmetry in E'. clear -E' LL. revert l1 E' LL. induction l1' as [|x l1' IH]; intros [|y l1] E L; cbn in *; try lia; injection E as E1 E2.
          - exists l1'. now subst.
          - destruct (IH l1 E2 ltac:(lia)) as (z & Z). exists z. congruence. }
        destruct P as (x & ->). rewrite merged_app, merged_cons, app_length, app_length, map_length in Ee. cbn in Ee. lia.
    - apply Nat.ltb_ge in Ei. exists None. split; [ easy | ]. apply Sep; lia.
  Qed.
End Multi.
