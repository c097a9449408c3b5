From Verif Require Import Py HashModel PatternModel PatternSpec PatternProofs TileModel TileSpec.

Lemma occurrences_inside s t : s <> [] -> negb (length (occurrences s t) =? 0) = true <-> inside s t.
Proof.
  intro Hs. rewrite negb_true_iff, Nat.eqb_neq. unfold occurrences, inside. split.
  - intro H. destruct (filter _ _) as [|i r] eqn:E; [simpl in H; lia|].
    assert (Hi : In i (i :: r)) by now left. rewrite <- E in Hi. apply filter_In in Hi. destruct Hi as [_ Hi].
    unfold list_eqb in Hi. destruct (list_eq_dec _ _ _) as [Hi'|]; [|discriminate]. unfold slice in Hi'.
    exists (firstn i t), (skipn (length s) (skipn i t)).
    rewrite <- Hi' at 1. rewrite firstn_skipn. now rewrite firstn_skipn.
  - intros (p & q & ->).
    assert (Hi : In (length p) (filter (fun i => list_eqb (slice (p ++ s ++ q) i (length s)) s) (range 0 (length (p ++ s ++ q))))).
    { apply filter_In. split.
      - unfold range. apply in_seq. rewrite !app_length. destruct s; [congruence|simpl; lia].
      - unfold list_eqb, slice. rewrite skipn_app, skipn_all, Nat.sub_diag. simpl.
        rewrite firstn_app, Nat.sub_diag, firstn_all. simpl. rewrite app_nil_r.
        destruct (list_eq_dec _ _ _); congruence. }
    destruct (filter _ _); [destruct Hi|simpl; lia].
Qed.

Lemma tree_find_iff strings s : s <> [] -> tree_find strings s = true <-> exists p, In p strings /\ inside s p.
Proof.
  intro Hs. unfold tree_find. rewrite existsb_exists. split; intros (p & Hp & H); exists p; split; auto; now apply occurrences_inside.
Qed.

Lemma run_find trace patterns a b : a < b -> b < length trace ->
  tree_find (map (fun p => slice trace (sa_first_pos p) (sa_length p)) patterns) (run_of trace a b) = true <-> part_of_pattern trace patterns a b.
Proof.
  intros Hab Hb. rewrite tree_find_iff.
  2: { unfold run_of. intro H. apply (f_equal (@length N)) in H. rewrite firstn_length, skipn_length in H. simpl in H. lia. }
  unfold part_of_pattern, block, piece, run_of. split.
  - intros (s & Hs & Hin). apply in_map_iff in Hs. destruct Hs as (p & <- & Hp). now exists p.
  - intros (p & Hp & Hin). eexists. split; [apply in_map_iff; exists p; split; [reflexivity|exact Hp]|exact Hin].
Qed.

Lemma tile_loop_tiles trace patterns steps : forall index a,
  a < index -> index + steps = length trace ->
  (forall j, a < j < index -> part_of_pattern trace patterns a j) ->
  tiles trace patterns a (tile_loop steps (map (fun p => slice trace (sa_first_pos p) (sa_length p)) patterns) trace index a).
Proof.
  induction steps as [|steps IH]; intros index a Ha Hs Hj.
  - apply tiles_tail. intros j Hj'. apply Hj. lia.
  - cbn [tile_loop]. destruct (tree_find _ _) eqn:E; cbn [negb].
    + apply IH; [lia|lia|]. intros j Hj'. destruct (Nat.eq_dec j index) as [->|]; [|apply Hj; lia].
      apply run_find; auto; lia.
    + apply tiles_piece; [lia| |].
      * split; [lia|]. split; [|exact Hj]. intro Hp. apply (run_find trace patterns a index) in Hp; [congruence|lia|lia].
      * apply IH; [lia|lia|]. intros j Hj'. lia.
Qed.

Lemma tiles_proof trace patterns : tiles trace patterns 0 (add_all_patterns_trace trace patterns).
Proof.
  unfold add_all_patterns_trace. destruct trace as [|x t].
  - simpl. apply tiles_tail. simpl. intros; lia.
  - apply tile_loop_tiles; [lia|simpl; lia|intros; lia].
Qed.

Lemma first_break_unique trace patterns a b c : first_break trace patterns a b -> first_break trace patterns a c -> b = c.
Proof.
  intros (H1 & H2 & H3) (H4 & H5 & H6). destruct (lt_eq_lt_dec b c) as [[H|H]|H]; [|exact H|].
  - exfalso. apply H2, H6. lia.
  - exfalso. apply H5, H3. lia.
Qed.

Lemma tiles_unique trace patterns a p q : tiles trace patterns a p -> tiles trace patterns a q -> p = q.
Proof.
  intro H. revert q. induction H as [a Ht|a b rest Hb Hf Hr IH]; intros q Hq.
  - inversion Hq as [|? c rest' Hc (H1 & H2 & H3) Hr']; subst; [reflexivity|]. exfalso. apply H2, Ht. lia.
  - inversion Hq as [? Ht|? c rest' Hc Hf' Hr']; subst.
    + exfalso. destruct Hf as (H1 & H2 & H3). apply H2, Ht. lia.
    + assert (b = c) by now apply (first_break_unique trace patterns a). subst c. f_equal. now apply IH.
Qed.

Lemma tiles_exact_proof trace patterns pieces : tiles trace patterns 0 pieces <-> pieces = add_all_patterns_trace trace patterns.
Proof. split; [|intros ->; apply tiles_proof]. intro H. exact (tiles_unique _ _ _ _ _ H (tiles_proof trace patterns)). Qed.

(** Consecutive non-empty pieces which leave at least one event. *)
Lemma tiles_consecutive trace patterns a l : tiles trace patterns a l ->
  a <= length trace -> (l <> [] -> a + total l < length trace) /\ (forall i p, nth_error l i = Some p -> sa_first_pos p = a + total (firstn i l) /\ 0 < sa_length p).
Proof.
  induction 1 as [a Ht|a b rest Hb (H1 & H2 & H3) Hr IH]; intro Ha.
  - split; [congruence|]. intros [|i] p; simpl; discriminate.
  - destruct IH as [IH1 IH2]; [lia|]. split.
    + intros _. unfold total. simpl. fold (total rest). destruct rest; [unfold total; simpl; lia|]. specialize (IH1 ltac:(discriminate)). lia.
    + intros [|i] p Hp; simpl in Hp.
      * injection Hp as <-. unfold total. simpl. lia.
      * apply IH2 in Hp. unfold total. simpl. fold (total (firstn i rest)). lia.
Qed.

Lemma consecutive_proof trace patterns :
  let pieces := add_all_patterns_trace trace patterns in
  (trace <> [] -> total pieces < length trace) /\
  (forall i p, nth_error pieces i = Some p -> sa_first_pos p = total (firstn i pieces) /\ 0 < sa_length p).
Proof.
  cbn zeta. destruct (tiles_consecutive _ _ _ _ (tiles_proof trace patterns) (Nat.le_0_l _)) as [H1 H2]. split.
  - intro Ht. destruct (add_all_patterns_trace trace patterns) eqn:E.
    + unfold total. simpl. destruct trace; [congruence|simpl; lia].
    + apply H1. discriminate.
  - intros i p Hp. apply H2 in Hp. exact Hp.
Qed.

Lemma tiles_pieces trace patterns a l : tiles trace patterns a l -> forall p, In p l ->
  first_break trace patterns (sa_first_pos p) (sa_first_pos p + sa_length p) /\ sa_first_pos p + sa_length p < length trace.
Proof.
  induction 1 as [a Ht|a b rest Hb Hf Hr IH]; intros p Hp; [destruct Hp|]. destruct Hp as [<-|Hp]; [|now apply IH].
  simpl. destruct Hf as (H1 & H2 & H3). replace (a + (b - a)) with b by lia. repeat split; auto.
Qed.

(** No piece is a pattern or a part of one. *)
Lemma not_pattern_proof trace patterns p q :
  In p (add_all_patterns_trace trace patterns) -> In q patterns -> ~ inside (block trace p) (block trace q).
Proof.
  intros Hp Hq Hin. destruct (tiles_pieces _ _ _ _ (tiles_proof trace patterns) _ Hp) as [(H1 & H2 & _) _].
  apply H2. exists q. split; [exact Hq|]. unfold block in Hin. now replace (_ + _ - _) with (sa_length p) by lia.
Qed.

Lemma all_but_last_proof trace patterns p q : In p (add_all_patterns_trace trace patterns) -> 1 < sa_length p ->
  q = sa_length p - 1 -> part_of_pattern trace patterns (sa_first_pos p) (sa_first_pos p + q).
Proof.
  intros Hp Hl ->. destruct (tiles_pieces _ _ _ _ (tiles_proof trace patterns) _ Hp) as [(H1 & H2 & H3) _]. apply H3. lia.
Qed.

Lemma tail_proof trace patterns a l : tiles trace patterns a l -> forall j, a + total l < j < length trace -> part_of_pattern trace patterns (a + total l) j.
Proof.
  induction 1 as [a Ht|a b rest Hb Hf Hr IH]; intros j Hj.
  - unfold total in *. simpl in *. rewrite Nat.add_0_r in *. auto.
  - unfold total in *. simpl in *. fold (total rest) in *. destruct Hf as (H1 & _).
    replace (a + (b - a + total rest)) with (b + total rest) in * by lia. apply IH. lia.
Qed.

Lemma log_proof log patterns : length log = length patterns ->
  length (add_all_patterns log patterns) = length log /\
  forall i t ps, nth_error log i = Some t -> nth_error patterns i = Some ps ->
    nth_error (add_all_patterns log patterns) i = Some (add_all_patterns_trace t ps).
Proof.
  intro Hl. unfold add_all_patterns. split; [rewrite map_length, combine_length; lia|].
  clear Hl. revert patterns. induction log as [|x log IH]; intros [|y patterns] [|i] t ps; simpl; try discriminate.
  - intros [= ->] [= ->]. reflexivity.
  - intros. now apply IH.
Qed.

Lemma no_patterns_proof trace :
  add_all_patterns_trace trace [] = map (fun i => mkSub i 1) (seq 0 (length trace - 1)).
Proof.
  unfold add_all_patterns_trace. cbn [map].
  assert (H : forall steps i, tile_loop steps [] trace (S i) i = map (fun i => mkSub i 1) (seq i steps)).
  { induction steps as [|s IH]; intro i; [reflexivity|]. cbn [tile_loop tree_find existsb negb]. rewrite IH. cbn [seq map].
    now replace (S i - i) with 1 by lia. }
  apply H.
Qed.
