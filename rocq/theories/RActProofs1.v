(** Proofs for C67: tandem arrays of the backend. *)
From Coq Require Import Sorting.Sorted Permutation.
From Verif Require Import Py PyFacts ReplayModel HashModel PatternModel PatternSpec PatternProofs HighProofs RActModel RActSpec.
From Verif Require SufModel.

Lemma elem_at_ok trace i : i < length trace -> exists x, nth_error trace i = Some x /\ elem_at trace i = Ok x.
Proof. intros H. unfold elem_at. destruct (nth_error trace i) as [x|] eqn:E; [exists x; split; reflexivity|]. apply nth_error_None in E. lia. Qed.

Lemma same_block_ok trace c s : forall offs, (forall k, In k offs -> c + k < length trace /\ s + k < length trace) ->
  r_same_block trace c s offs = Ok (forallb (fun i => match nth_error trace (c + i), nth_error trace (s + i) with Some a, Some b => N.eqb a b | _, _ => false end) offs).
Proof.
  induction offs as [|k offs IH]; intros H; [reflexivity|]. cbn [r_same_block forallb].
  destruct (H k (or_introl eq_refl)) as [H1 H2]. destruct (elem_at_ok _ _ H1) as [a [Ea ->]]. destruct (elem_at_ok _ _ H2) as [b [Eb ->]].
  cbn [bind]. rewrite Ea, Eb. destruct (N.eqb a b); [|reflexivity]. cbn [andb]. apply IH. intros k' Hk'. apply H. right; exact Hk'.
Qed.

Lemma r_count_ok trace s L : 1 <= L -> forall fuel fuel2 c n, s + L <= c -> 1 <= fuel -> length trace < fuel + c -> length trace <= fuel2 + c ->
  r_count fuel trace s L c n = Ok (count_repeats fuel2 trace s L c n).
Proof.
  intros HL. induction fuel as [|fuel IH]; intros fuel2 c n Hs H0 H1 H2.
  - lia.
  - cbn [r_count]. destruct (Nat.leb_spec (length trace) (c + L - 1)) as [H|H].
    + destruct fuel2; cbn [count_repeats]; [reflexivity|]. apply Nat.leb_le in H. rewrite H. reflexivity.
    + destruct fuel2 as [|fuel2]; [lia|]. cbn [count_repeats]. destruct (Nat.leb_spec (length trace) (c + L - 1)) as [H'|_]; [lia|].
      rewrite same_block_ok by (intros k Hk; apply in_range in Hk; lia). cbn [bind]. fold (same_block trace s c L).
      destruct (same_block trace s c L); [|reflexivity]. apply IH; lia.
Qed.

Lemma r_try_ok trace s L : 1 <= L -> r_try_extract trace s L = Ok (try_extract_tandem_array trace s L).
Proof.
  intros HL. unfold r_try_extract. destruct (le_lt_dec (length trace) (s + L)) as [H|H].
  - rewrite (r_count_ok trace s L HL (S (length trace)) (length trace)) by lia. reflexivity.
  - rewrite (r_count_ok trace s L HL (S (length trace)) (length trace)) by lia. reflexivity.
Qed.

Section Windows.
  Variable sip : N -> N.

  (** the value of the hash, 0 when it panics *)
  Definition hv (w : list N) : N := match poly_hash sip w with Ok h => h | Err _ => 0%N end.

  Definition g_step (trace : list N) (st : list N * list tandem_info) (w : nat * nat) : list N * list tandem_info :=
    let '(visited, arrays) := st in
    let '(L, i) := w in
    let h := hv (piece trace i L) in
    if existsb (N.eqb h) visited then st
    else (h :: visited, match try_extract_tandem_array trace i L with Some a => arrays ++ [a] | None => arrays end).

  Lemma range_of_piece trace i L : i + L <= length trace -> SufModel.range_of trace i (i + L) = Ok (piece trace i L).
  Proof.
    intros H. unfold SufModel.range_of. destruct (Nat.leb_spec i (i + L)); [|lia]. destruct (Nat.leb_spec (i + L) (length trace)); [|lia].
    cbn [andb]. unfold piece. replace (i + L - i) with L by lia. reflexivity.
  Qed.

  Lemma step_ok trace st L i : 1 <= L -> i + L <= length trace ->
    r_tandem_step sip trace st (L, i) =
    match poly_hash sip (piece trace i L) with Ok _ => Ok (g_step trace st (L, i)) | Err e => Err e end.
  Proof.
    intros HL Hi. destruct st as [vis arr]. unfold r_tandem_step, g_step, hv. rewrite range_of_piece by exact Hi. cbn [bind].
    destruct (poly_hash sip (piece trace i L)) as [h|e]; [|reflexivity]. cbn [bind].
    destruct (existsb (N.eqb h) vis); [reflexivity|]. rewrite r_try_ok by exact HL. reflexivity.
  Qed.

  Lemma loop_ok trace : forall ws st, (forall L i, In (L, i) ws -> 1 <= L /\ i + L <= length trace) ->
    match loopM (r_tandem_step sip trace) ws st with
    | Ok st' => st' = fold_left (g_step trace) ws st /\ forall L i, In (L, i) ws -> hashable sip (piece trace i L)
    | Err e => exists L i, In (L, i) ws /\ poly_hash sip (piece trace i L) = Err e
    end.
  Proof.
    induction ws as [|[L i] ws IH]; intros st H; [cbn; split; [reflexivity|intros L i []]|].
    cbn [loopM]. destruct (H L i (or_introl eq_refl)) as [H1 H2]. rewrite step_ok by assumption.
    destruct (poly_hash sip (piece trace i L)) as [h|e] eqn:Eh; cbn [bind]; [|exists L, i; split; [left; reflexivity|exact Eh]].
    specialize (IH (g_step trace st (L, i)) (fun L' i' Hin => H L' i' (or_intror Hin))). 
    change (match loopM (r_tandem_step sip trace) ws (g_step trace st (L, i)) with
            | Ok st' => st' = fold_left (g_step trace) ((L, i) :: ws) st /\ forall L0 i0, In (L0, i0) ((L, i) :: ws) -> hashable sip (piece trace i0 L0)
            | Err e => exists L0 i0, In (L0, i0) ((L, i) :: ws) /\ poly_hash sip (piece trace i0 L0) = Err e end).
    destruct (loopM (r_tandem_step sip trace) ws (g_step trace st (L, i))) as [st'|e].
    - destruct IH as [-> IH]. split; [reflexivity|]. intros L' i' [[= <- <-]|Hin]; [exists h; exact Eh|apply IH; exact Hin].
    - destruct IH as [L' [i' [Hin E]]]. exists L', i'. split; [right; exact Hin|exact E].
  Qed.

  Lemma in_r_windows n max L i : In (L, i) (r_windows n max) <-> 2 <= L /\ L < max /\ i + L < n.
  Proof.
    unfold r_windows. rewrite in_flat_map. split.
    - intros [L' [H1 H2]]. apply in_map_iff in H2. destruct H2 as [i' [E H2]]. injection E as -> ->. apply in_range in H1, H2. lia.
    - intros [H1 [H2 H3]]. exists L. split; [apply in_range; lia|]. apply in_map_iff. exists i. split; [reflexivity|]. apply in_range. lia.
  Qed.
  Lemma r_windows_eq n max : r_windows n max = windows n (Z.of_nat max).
  Proof.
    unfold r_windows, windows. rewrite Nat2Z.id. unfold range.
    destruct (le_lt_dec max n) as [H|H]; [rewrite Nat.min_l by exact H; reflexivity|]. rewrite Nat.min_r by lia.
    destruct (le_lt_dec n 2) as [Hn|Hn].
    - replace (n - 2) with 0 by lia. cbn [seq flat_map].
      assert (G : forall k a, 2 <= a -> flat_map (fun L => map (fun i => (L, i)) (seq 0 (n - L - 0))) (seq a k) = []).
      { induction k as [|k IHk]; intros a Ha; [reflexivity|]. cbn [seq flat_map]. rewrite IHk by lia. replace (n - a - 0) with 0 by lia. reflexivity. }
      rewrite G by lia. reflexivity.
    - replace (max - 2) with ((n - 2) + (max - n)) by lia. rewrite seq_app, flat_map_app.
      assert (G : forall k a, n <= a -> flat_map (fun L => map (fun i => (L, i)) (seq 0 (n - L - 0))) (seq a k) = []).
      { induction k as [|k IHk]; intros a Ha; [reflexivity|]. cbn [seq flat_map]. rewrite IHk by lia. replace (n - a - 0) with 0 by lia. reflexivity. }
      rewrite (G (max - n)) by lia. rewrite app_nil_r. reflexivity.
  Qed.

  Lemma maximal_cases trace max :
    match r_maximal_of_trace sip max trace with
    | Ok l => l = snd (fold_left (g_step trace) (r_windows (length trace) max) ([], [])) /\
              forall L i, 2 <= L -> L < max -> i + L < length trace -> hashable sip (piece trace i L)
    | Err e => exists L i, 2 <= L /\ L < max /\ i + L < length trace /\ poly_hash sip (piece trace i L) = Err e
    end.
  Proof.
    unfold r_maximal_of_trace.
    assert (Hw : forall L i, In (L, i) (r_windows (length trace) max) -> 1 <= L /\ i + L <= length trace) by (intros L i Hin; apply in_r_windows in Hin; lia).
    pose proof (loop_ok trace (r_windows (length trace) max) ([], []) Hw) as H.
    destruct (loopM (r_tandem_step sip trace) (r_windows (length trace) max) ([], [])) as [st|e]; cbn [bind].
    - destruct H as [-> H]. split; [reflexivity|]. intros L i H1 H2 H3. apply H. apply in_r_windows. auto.
    - destruct H as [L [i [Hin E]]]. apply in_r_windows in Hin. exists L, i. split; [apply Hin|]. split; [apply Hin|]. split; [apply Hin|exact E].
  Qed.

  Lemma fold_g trace a : forall ws vis arr,
    In a (snd (fold_left (g_step trace) ws (vis, arr))) <->
    In a arr \/ exists p w q, ws = p ++ w :: q /\ ~ In (hv (piece trace (snd w) (fst w))) vis /\
      (forall w', In w' p -> hv (piece trace (snd w') (fst w')) <> hv (piece trace (snd w) (fst w))) /\
      try_extract_tandem_array trace (snd w) (fst w) = Some a.
  Proof.
    induction ws as [|[L i] ws IH]; intros vis arr.
    - cbn. split; [auto|]. intros [H|[p [w [q [H _]]]]]; [exact H|destruct p; discriminate].
    - cbn [fold_left]. unfold g_step at 2.
      destruct (existsb (N.eqb (hv (piece trace i L))) vis) eqn:Ev.
      + apply existsb_N in Ev. rewrite IH. split.
        * intros [H|[p [w [q [-> [H1 [H2 H3]]]]]]]; [left; exact H|]. right. exists ((L, i) :: p), w, q. split; [reflexivity|]. split; [exact H1|].
          split; [|exact H3]. intros w' [<-|Hw']; [cbn [fst snd]; intros E; apply H1; rewrite <- E; exact Ev|apply H2; exact Hw'].
        * intros [H|[p [w [q [E [H1 [H2 H3]]]]]]]; [left; exact H|]. right. destruct p as [|w0 p].
          -- cbn in E. injection E as <- <-. contradiction.
          -- cbn in E. injection E as <- ->. exists p, w, q. split; [reflexivity|]. split; [exact H1|]. split; [|exact H3]. intros w' Hw'. apply H2. right; exact Hw'.
      + assert (Hn : ~ In (hv (piece trace i L)) vis) by (intros H; apply existsb_N in H; congruence).
        rewrite IH. split.
        * intros [H|[p [w [q [-> [H1 [H2 H3]]]]]]].
          -- destruct (try_extract_tandem_array trace i L) as [b|] eqn:Et; [|left; exact H].
             apply in_app_or in H. destruct H as [H|[<-|[]]]; [left; exact H|]. right. exists [], (L, i), ws. split; [reflexivity|].
             split; [exact Hn|]. split; [intros w' []|exact Et].
          -- right. exists ((L, i) :: p), w, q. split; [reflexivity|]. split; [intros Hin; apply H1; right; exact Hin|]. split; [|exact H3].
             intros w' [<-|Hw']; [cbn [fst snd]; intros E; apply H1; left; exact E|apply H2; exact Hw'].
        * intros [H|[p [w [q [E [H1 [H2 H3]]]]]]].
          -- left. destruct (try_extract_tandem_array trace i L); [apply in_or_app; left|]; exact H.
          -- destruct p as [|w0 p].
             ++ cbn in E. injection E as <- <-. left. cbn [fst snd] in H3. rewrite H3. apply in_or_app. right. left. reflexivity.
             ++ cbn in E. injection E as <- ->. right. exists p, w, q. split; [reflexivity|]. split.
                ** intros [Hin|Hin]; [apply (H2 (L, i) (or_introl eq_refl)); exact Hin|contradiction].
                ** split; [|exact H3]. intros w' Hw'. apply H2. right; exact Hw'.
  Qed.

  Lemma hv_eq a b : hashable sip a -> hashable sip b -> (hv a = hv b <-> poly_hash sip a = poly_hash sip b).
  Proof. intros [h Ha] [h' Hb]. unfold hv. rewrite Ha, Hb. split; congruence. Qed.

  Lemma r_exact_proof trace max arrays : r_maximal_of_trace sip max trace = Ok arrays -> forall i L r,
    (In (mkTandem i L r) arrays <->
     2 <= L /\ L < max /\ 2 <= r /\ repeated trace i L r /\ ~ repeated trace i L (S r) /\
     forall L' i', 2 <= L' -> i' + L' < length trace -> before (L', i') (L, i) ->
       poly_hash sip (piece trace i' L') <> poly_hash sip (piece trace i L)).
  Proof.
    intros Hok i L r. pose proof (maximal_cases trace max) as H. rewrite Hok in H. destruct H as [-> Hh].
    rewrite fold_g. rewrite r_windows_eq. pose proof (windows_sorted (length trace) (Z.of_nat max)) as Hs. split.
    - intros [[]|[p [[L0 i0] [q [E [_ [H2 H3]]]]]]]. cbn [fst snd] in H3.
      assert (Hw : In (L0, i0) (windows (length trace) (Z.of_nat max))) by (rewrite E; apply in_or_app; right; left; reflexivity).
      apply in_windows in Hw. apply try_extract_iff in H3; [|lia]. destruct H3 as [r' [[= -> -> ->] [R1 [R2 R3]]]].
      split; [lia|]. split; [lia|]. split; [exact R1|]. split; [exact R2|]. split; [exact R3|]. intros L' i' HL' Hi' Hb He.
      assert (HL2 : L' < max) by (unfold before in Hb; cbn in Hb; lia).
      apply (H2 (L', i')).
      + apply (sorted_split _ _ _ _ (L', i') Hs E). split; [|exact Hb]. apply in_windows. lia.
      + cbn [fst snd]. apply hv_eq; [apply Hh; lia|apply Hh; lia|exact He].
    - intros [H1 [H2 [R1 [R2 [R3 H3]]]]]. right.
      assert (Hw : In (L, i) (windows (length trace) (Z.of_nat max))) by (apply in_windows; destruct R2 as [R2 _]; nia).
      assert (HiL : i + L < length trace) by (apply in_windows in Hw; lia).
      apply in_split in Hw. destruct Hw as [p [q E]]. exists p, (L, i), q. split; [exact E|]. split; [intros []|]. split.
      + intros [L' i'] Hin. apply (sorted_split _ _ _ _ (L', i') Hs E) in Hin. destruct Hin as [Hin Hb]. apply in_windows in Hin.
        cbn [fst snd]. intros He. apply hv_eq in He; [|apply Hh; lia|apply Hh; lia]. apply (H3 L' i'); [lia|lia|exact Hb|exact He].
      + apply try_extract_iff; [cbn; lia|]. exists r. auto.
  Qed.

  Lemma r_total_proof trace max :
    (forall i L, 2 <= L -> L < max -> i + L < length trace -> hashable sip (piece trace i L)) <-> exists arrays, r_maximal_of_trace sip max trace = Ok arrays.
  Proof.
    pose proof (maximal_cases trace max) as H. split.
    - intros Hh. destruct (r_maximal_of_trace sip max trace) as [l|e]; [exists l; reflexivity|].
      destruct H as [L [i [H1 [H2 [H3 E]]]]]. destruct (Hh i L H1 H2 H3) as [h Eh]. congruence.
    - intros [l E]. rewrite E in H. destruct H as [_ H]. intros i L. apply H.
  Qed.

  Lemma r_first_proof trace max arrays : apart sip trace -> r_maximal_of_trace sip max trace = Ok arrays -> forall i L r,
    (In (mkTandem i L r) arrays <->
     2 <= L /\ L < max /\ 2 <= r /\ repeated trace i L r /\ ~ repeated trace i L (S r) /\
     forall i', i' < i -> piece trace i' L <> piece trace i L).
  Proof.
    intros Hc Hok i L r. rewrite (r_exact_proof trace max arrays Hok). split; intros [H1 [H2 [R1 [R2 [R3 H3]]]]]; (split; [exact H1|]; split; [exact H2|]; split; [exact R1|]; split; [exact R2|]; split; [exact R3|]).
    - intros i' Hi' E. assert (Hl : i' + L < length trace) by (destruct R2 as [R2 _]; nia).
      apply (H3 L i' H1 Hl); [right; split; [reflexivity|exact Hi']|]. rewrite E. reflexivity.
    - intros L' i' HL' Hi' Hb E. assert (Hl : i + L < length trace) by (destruct R2 as [R2 _]; nia).
      apply Hc in E; [|lia|lia|lia|lia]. assert (L' = L).
      { apply (f_equal (@length N)) in E. rewrite !piece_length in E by lia. exact E. }
      subst L'. destruct Hb as [Hb|[_ Hb]]; cbn in Hb; [lia|]. apply (H3 i' Hb E).
  Qed.

  (** the same list as the client's *)
  Definition seen_ok (trace : list N) (h : list N -> N) (vis : list N) (done : list (nat * nat)) : Prop :=
    forall x, In x vis <-> exists w, In w done /\ h (piece trace (snd w) (fst w)) = x.

  Lemma folds_agree trace (Ht : trace <> []) : forall ws done v1 v2 arr,
    (forall w w', In w (done ++ ws) -> In w' (done ++ ws) ->
       (hv (piece trace (snd w) (fst w)) = hv (piece trace (snd w') (fst w')) <-> piece trace (snd w) (fst w) = piece trace (snd w') (fst w'))) ->
    (forall w w', In w (done ++ ws) -> In w' (done ++ ws) ->
       (whash trace w = whash trace w' <-> piece trace (snd w) (fst w) = piece trace (snd w') (fst w'))) ->
    seen_ok trace hv v1 done -> (forall x, In x v2 <-> exists w, In w done /\ whash trace w = x) ->
    snd (fold_left (g_step trace) ws (v1, arr)) = snd (fold_left (tandem_step trace) ws (v2, arr)).
  Proof.
    induction ws as [|[L i] ws IH]; intros done v1 v2 arr H1 H2 S1 S2; [reflexivity|]. cbn [fold_left]. unfold g_step at 2, tandem_step at 2.
    change (collection_poly_hash_slice trace i (i + L)) with (whash trace (L, i)).
    assert (Hin : In (L, i) (done ++ (L, i) :: ws)) by (apply in_or_app; right; left; reflexivity).
    assert (Hd : forall w, In w done -> In w (done ++ (L, i) :: ws)) by (intros w Hw; apply in_or_app; left; exact Hw).
    assert (E : existsb (N.eqb (hv (piece trace i L))) v1 = existsb (N.eqb (whash trace (L, i))) v2).
    { destruct (existsb (N.eqb (hv (piece trace i L))) v1) eqn:E1, (existsb (N.eqb (whash trace (L, i))) v2) eqn:E2; try reflexivity; exfalso.
      - apply existsb_N, S1 in E1. destruct E1 as [w [Hw E1]].
        assert (K : In (whash trace (L, i)) v2); [|apply existsb_N in K; congruence]. apply S2. exists w. split; [exact Hw|].
        apply (H2 w (L, i) (Hd w Hw) Hin). apply (H1 w (L, i) (Hd w Hw) Hin). exact E1.
      - apply existsb_N, S2 in E2. destruct E2 as [w [Hw E2]].
        assert (K : In (hv (piece trace i L)) v1); [|apply existsb_N in K; congruence]. apply S1. exists w. split; [exact Hw|].
        apply (H1 w (L, i) (Hd w Hw) Hin). apply (H2 w (L, i) (Hd w Hw) Hin). exact E2. }
    assert (Happ : done ++ (L, i) :: ws = (done ++ [(L, i)]) ++ ws) by (rewrite <- app_assoc; reflexivity).
    rewrite <- E. destruct (existsb (N.eqb (hv (piece trace i L))) v1) eqn:E1.
    - apply (IH (done ++ [(L, i)])); [rewrite <- Happ; exact H1|rewrite <- Happ; exact H2| |].
      + intros x. rewrite (S1 x). split; [intros [w [Hw Ew]]; exists w; split; [apply in_or_app; left; exact Hw|exact Ew]|].
        intros [w [Hw Ew]]. apply in_app_or in Hw. destruct Hw as [Hw|[<-|[]]]; [exists w; split; assumption|].
        apply existsb_N, S1 in E1. destruct E1 as [w [Hw E1]]. exists w. split; [exact Hw|]. cbn [fst snd] in Ew. congruence.
      + intros x. rewrite (S2 x). split; [intros [w [Hw Ew]]; exists w; split; [apply in_or_app; left; exact Hw|exact Ew]|].
        intros [w [Hw Ew]]. apply in_app_or in Hw. destruct Hw as [Hw|[<-|[]]]; [exists w; split; assumption|].
        assert (E2 := eq_sym E). apply existsb_N, S2 in E2. destruct E2 as [w [Hw E2]]. exists w. split; [exact Hw|]. congruence.
    - apply (IH (done ++ [(L, i)])); [rewrite <- Happ; exact H1|rewrite <- Happ; exact H2| |].
      + intros x. cbn [In]. rewrite (S1 x). split.
        * intros [<-|[w [Hw Ew]]]; [exists (L, i); split; [apply in_or_app; right; left; reflexivity|reflexivity]|exists w; split; [apply in_or_app; left; exact Hw|exact Ew]].
        * intros [w [Hw Ew]]. apply in_app_or in Hw. destruct Hw as [Hw|[<-|[]]]; [right; exists w; split; assumption|left; exact Ew].
      + intros x. cbn [In]. rewrite (S2 x). split.
        * intros [<-|[w [Hw Ew]]]; [exists (L, i); split; [apply in_or_app; right; left; reflexivity|reflexivity]|exists w; split; [apply in_or_app; left; exact Hw|exact Ew]].
        * intros [w [Hw Ew]]. apply in_app_or in Hw. destruct Hw as [Hw|[<-|[]]]; [right; exists w; split; assumption|left; exact Ew].
  Qed.

  Lemma legacy_proof trace max : no_collision trace -> apart sip trace ->
    (forall i L, 2 <= L -> L < max -> i + L < length trace -> hashable sip (piece trace i L)) ->
    r_maximal_of_trace sip max trace = Ok (maximal_tandem_arrays_of_trace trace (Z.of_nat max)).
  Proof.
    intros Hn Ha Hh. destruct (proj1 (r_total_proof trace max) Hh) as [l E]. rewrite E. f_equal.
    pose proof (maximal_cases trace max) as H. rewrite E in H. destruct H as [-> _]. unfold maximal_tandem_arrays_of_trace. rewrite r_windows_eq.
    destruct (list_eq_dec N.eq_dec trace []) as [->|Ht].
    { assert (K : windows (length (@nil N)) (Z.of_nat max) = []).
      { destruct (windows _ _) as [|[L i] ws] eqn:Ew; [reflexivity|]. assert (Hin : In (L, i) (windows (length (@nil N)) (Z.of_nat max))) by (rewrite Ew; left; reflexivity). apply in_windows in Hin. cbn in Hin. lia. }
      rewrite K. reflexivity. }
    apply (folds_agree trace Ht _ []).
    - intros [L i] [L' i'] H1 H2. cbn [app] in H1, H2. apply in_windows in H1, H2. cbn [fst snd]. rewrite hv_eq by (apply Hh; lia). split; [apply Ha; lia|intros ->; reflexivity].
    - intros [L i] [L' i'] H1 H2. cbn [app] in H1, H2. apply in_windows in H1, H2. unfold whash. cbn [fst snd]. split; [apply Hn; lia|]. intros Ep. rewrite !slice_hash_piece by exact Ht. rewrite Ep. reflexivity.
    - intros x. split; [intros []|intros [w [[] _]]].
    - intros x. split; [intros []|intros [w [[] _]]].
  Qed.

  Lemma mapM_Forall2 {A B} (f : A -> result B) : forall l r, mapM f l = Ok r <-> Forall2 (fun a b => f a = Ok b) l r.
  Proof.
    induction l as [|a l IH]; intros r.
    - cbn. split; [intros [= <-]; constructor|intros H; inversion H; reflexivity].
    - cbn [mapM]. split.
      + intros H. apply bind_ok in H. destruct H as [b [Eb H]]. apply bind_ok in H. destruct H as [bs [Ebs [= <-]]]. constructor; [exact Eb|apply IH; exact Ebs].
      + intros H. inversion H as [|? b ? bs Eb Hbs]; subst. rewrite Eb. cbn [bind]. apply IH in Hbs. rewrite Hbs. reflexivity.
  Qed.

  Lemma r_primitive_ok trace s : forall lengths, (forall L, In L lengths -> 1 <= L) ->
    r_is_primitive trace s lengths = Ok (forallb (fun L => match try_extract_tandem_array trace s L with Some _ => false | None => true end) lengths).
  Proof.
    induction lengths as [|L lengths IH]; intros H; [reflexivity|]. cbn [r_is_primitive forallb]. rewrite r_try_ok by (apply H; left; reflexivity). cbn [bind].
    destruct (try_extract_tandem_array trace s L); [reflexivity|]. cbn [andb]. apply IH. intros L' HL'. apply H. right; exact HL'.
  Qed.
  Lemma filterM_ok {A} (f : A -> result bool) (g : A -> bool) : (forall a, f a = Ok (g a)) -> forall l, filterM f l = Ok (filter g l).
  Proof. intros H. induction l as [|a l IH]; [reflexivity|]. cbn [filterM filter]. rewrite H. cbn [bind]. rewrite IH. cbn [bind]. destruct (g a); reflexivity. Qed.

  Lemma primitive_filter trace arrays :
    filterM (fun a => r_is_primitive trace (ta_first_pos a) (range 2 ((ta_length a + 1) / 2 + 1))) arrays = Ok (filter (is_primitive_array trace) arrays).
  Proof.
    apply filterM_ok. intros a. rewrite r_primitive_ok by (intros L HL; apply in_range in HL; lia). unfold is_primitive_array.
    replace ((ta_length a + 3) / 2) with ((ta_length a + 1) / 2 + 1); [reflexivity|].
    replace (ta_length a + 3) with (ta_length a + 1 + 1 * 2) by lia. rewrite Nat.div_add by lia. reflexivity.
  Qed.

  Lemma r_find_primitive_eq log max maximal : r_find_maximal sip log max = Ok maximal ->
    r_find_primitive sip log max = Ok (map (fun p => filter (is_primitive_array (snd p)) (fst p)) (combine maximal log)).
  Proof.
    intros E. unfold r_find_primitive. rewrite E. cbn [bind]. apply mapM_Forall2. generalize (combine maximal log) as l. clear E.
    induction l as [|p l IH]; cbn [map]; constructor; [apply primitive_filter|exact IH].
  Qed.

  Lemma primitive_iff trace a : is_primitive_array trace a = true <-> forall c, 2 <= c -> 2 * c <= ta_length a + 1 -> ~ repeated trace (ta_first_pos a) c 2.
  Proof.
    unfold is_primitive_array. rewrite forallb_forall. split.
    - intros H c H1 H2. assert (Hin : In c (range 2 ((ta_length a + 3) / 2))).
      { apply in_range. split; [exact H1|]. apply (Nat.div_le_lower_bound (ta_length a + 3) 2 (S c)); lia. }
      specialize (H c Hin). pose proof (try_extract_spec trace (ta_first_pos a) c ltac:(lia)) as S.
      destruct (try_extract_tandem_array trace (ta_first_pos a) c); [discriminate|exact S].
    - intros H c Hc. apply in_range in Hc. destruct Hc as [H1 H2].
      assert (H3 : 2 * c <= ta_length a + 1). { pose proof (Nat.mul_div_le (ta_length a + 3) 2 ltac:(lia)). lia. }
      specialize (H c H1 H3). pose proof (try_extract_spec trace (ta_first_pos a) c ltac:(lia)) as S.
      destruct (try_extract_tandem_array trace (ta_first_pos a) c) as [b|]; [|reflexivity]. destruct S as [r [_ [S1 [S2 _]]]].
      exfalso. apply H. apply (repeated_le _ _ _ r); assumption.
  Qed.

  Lemma primitive_log_proof log max prims : r_find_primitive sip log max = Ok prims ->
    exists maximal, r_find_maximal sip log max = Ok maximal /\ length prims = length log /\
    forall k trace arrays ps, nth_error log k = Some trace -> nth_error maximal k = Some arrays -> nth_error prims k = Some ps ->
    forall a, In a ps <-> In a arrays /\ forall c, 2 <= c -> 2 * c <= ta_length a + 1 -> ~ repeated trace (ta_first_pos a) c 2.
  Proof.
    intros H. pose proof H as H0. unfold r_find_primitive in H0. apply bind_ok in H0. destruct H0 as [maximal [E _]]. exists maximal. split; [exact E|].
    rewrite (r_find_primitive_eq log max maximal E) in H. injection H as <-.
    assert (Hl : length maximal = length log). { unfold r_find_maximal in E. apply mapM_Forall2 in E. clear -E. induction E; cbn; congruence. }
    split; [rewrite map_length, combine_length; lia|]. intros k trace arrays ps Ht Ha Hp a. rewrite nth_error_map in Hp.
    assert (Ec : nth_error (combine maximal log) k = Some (arrays, trace)).
    { revert Ht Ha. clear. revert log k. induction maximal as [|f fs IH]; intros [|t traces] [|n] H1 H2; cbn in *; try discriminate; [congruence|apply IH; assumption]. }
    rewrite Ec in Hp. injection Hp as <-. cbn [fst snd]. rewrite filter_In. apply and_iff_compat_l. apply primitive_iff.
  Qed.
End Windows.
