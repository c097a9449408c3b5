(** The repeats which are found, as words of the text. *)
From Coq Require Import Permutation Sorting.Sorted.
From Verif Require Import Py PyFacts ReplayModel RInfoModel RInfoSpec SufModel SufSpec SufProofs1 SufProofs2 SufProofs3 SufProofs4 SufProofs5 SufProofs6.

Lemma reported_ext {A} (O O' : nat -> Prop) (lf lf' rf rf' : nat -> option A) ty : (forall s, O s <-> O' s) -> (forall s, O s -> lf s = lf' s) ->
  (forall s, O s -> rf s = rf' s) -> reported O lf rf ty -> reported O' lf' rf' ty.
Proof.
  intros HO Hl Hr.
  assert (D : diverse O lf rf -> diverse O' lf' rf').
  { intros (s & t & D1 & D2 & D3 & D4). exists s, t. conj; try (now apply HO).
    - rewrite <- Hr, <- Hr by easy. easy.
    - rewrite <- Hl by easy. destruct D4 as [D4|D4]; [ now left | right ]. intros u Hu. apply HO in Hu. rewrite <- Hl, <- !Hr by easy. now apply D4. }
  destruct ty; cbn [reported].
  - exact D.
  - intros ((s & t & A1 & A2 & A3) & B). split; [ exists s, t; conj; try (now apply HO); easy | ].
    intros s' t' Hs Ht Hne. apply HO in Hs, Ht. rewrite <- !Hl, <- !Hr by easy. now apply B.
  - intros (A1 & s & A2 & A3 & A4). split; [ now apply D | ]. exists s. conj; [ now apply HO | now rewrite <- Hl | ].
    intros t Ht Hne. apply HO in Ht. rewrite <- !Hl, <- !Hr by easy. now apply A4.
Qed.
(** Each kind asks for two positions with different elements after. *)
Lemma reported_two {A} (O : nat -> Prop) (lf rf : nat -> option A) ty : reported O lf rf ty -> exists s t, O s /\ O t /\ rf s <> rf t.
Proof.
  assert (D : diverse O lf rf -> exists s t, O s /\ O t /\ rf s <> rf t) by (intros (s & t & D1 & D2 & D3 & _); exists t, s; auto).
  destruct ty; cbn [reported]; [ easy | | tauto ]. intros ((s & t & A1 & A2 & A3) & B). exists s, t. conj; auto. now apply B.
Qed.

Section Tree.
  Variable sl : slice.
  Notation get := (sl_get sl).
  Notation n := (sl_len sl).
  Notation sub := (sub (sl_get sl)).
  Notation wf := (wf sl).
  Notation trie := (trie sl).
  Variable ord : nat -> forall A : Type, list A -> list A.
  Hypothesis O : any_order ord.

  (** The words of the ranges can be read. *)
  Definition readable : Prop := forall s e, s < e -> e < n ->
    exists o, sl_sub sl s e = Ok o /\ match o with Some w => map Some w = sub s e | None => In None (sub s e) end.

  Lemma first_of_each_ok : forall l seen, (forall r, In r l -> exists o, sl_sub sl (fst r) (snd r) = Ok o) -> StronglySorted pair_le l ->
    exists k, first_of_each sl seen l = Ok k /\ StronglySorted pair_le k /\ NoDup k /\
      (forall r, In r k -> In r l /\ exists w, sl_sub sl (fst r) (snd r) = Ok (Some w) /\ ~ In w seen) /\
      (forall r w, In r l -> sl_sub sl (fst r) (snd r) = Ok (Some w) -> In w seen \/ exists r', In r' k /\ sl_sub sl (fst r') (snd r') = Ok (Some w)) /\
      (forall r r', In r k -> In r' k -> sl_sub sl (fst r) (snd r) = sl_sub sl (fst r') (snd r') -> r = r').
  Proof.
    induction l as [|r l IH]; intros seen H S.
    - exists []. conj; try easy; constructor.
    - apply StronglySorted_inv in S. destruct S as (S1 & S2). destruct (H r (or_introl eq_refl)) as (o & Ho). cbn [first_of_each]. rewrite Ho. cbn [bind].
      assert (IH' := fun seen => IH seen ltac:(intros; apply H; now right) S1). clear IH. destruct o as [w|].
      + destruct (in_dec (list_eq_dec N.eq_dec) w seen) as [Hw|Hw].
        * destruct (IH' seen) as (k & K1 & K2 & K3 & K4 & K5 & K6). exists k. conj; auto.
          -- intros r' Hr'. destruct (K4 r' Hr') as (A & B). split; [ now right | easy ].
          -- intros r' w' [<-|Hr'] Hs; [ | eauto ]. rewrite Ho in Hs. injection Hs as <-. now left.
        * destruct (IH' (w :: seen)) as (k & K1 & K2 & K3 & K4 & K5 & K6). rewrite K1. cbn [bind]. exists (r :: k).
          assert (Hk : forall r', In r' k -> sl_sub sl (fst r') (snd r') <> Ok (Some w)).
          { intros r' Hr' E. destruct (K4 r' Hr') as (_ & w' & W1 & W2). apply W2. left. congruence. }
          conj; auto.
          -- constructor; [ easy | ]. apply Forall_forall. intros r' Hr'. rewrite Forall_forall in S2. apply S2. now apply K4.
          -- constructor; [ | easy ]. intros Hr. now apply (Hk r Hr).
          -- intros r' [<-|Hr']; [ split; [ now left | eauto ] | ]. destruct (K4 r' Hr') as (A & w' & W1 & W2). split; [ now right | ].
             exists w'. split; [ easy | ]. intros Z. apply W2. now right.
          -- intros r' w' [<-|Hr'] Hs.
             ++ right. exists r. split; [ now left | easy ].
             ++ destruct (K5 r' w' Hr' Hs) as [[<-|Z]|(r2 & Z1 & Z2)]; [ right; exists r; split; [ now left | easy ] | now left | right; exists r2; split; [ now right | easy ] ].
          -- intros r1 r2 [<-|H1] [<-|H2] E; auto; exfalso.
             ++ apply (Hk r2 H2). congruence.
             ++ apply (Hk r1 H1). congruence.
      + destruct (IH' seen) as (k & K1 & K2 & K3 & K4 & K5 & K6). exists k. conj; auto.
        * intros r' Hr'. destruct (K4 r' Hr') as (A & B). split; [ now right | easy ].
        * intros r' w' [<-|Hr'] Hs; [ congruence | eauto ].
  Qed.

  Section Fixed.
    Variables (k : nat) (nodes : list snode) (path : nat -> list (option N)).
    Hypothesis W : wf k nodes path [] [].
    Hypothesis K : 0 < k.

    Definition starts (b : list (option N)) (s : nat) : Prop := s < k /\ prefix b (sub s n).

    Lemma place : forall b, trie k b -> exists v p, loc nodes path v p b.
    Proof.
      induction b as [|x b IH] using rev_ind; intros T.
      - destruct (w_root _ _ _ _ _ _ W) as (r & R1 & R2 & R3 & R4 & R5). exists 0, (elen r).
        pose proof (loc_node _ _ _ _ _ _ W 0 r R1) as L0. now rewrite (w_root_path _ _ _ _ _ _ W) in L0.
      - destruct (IH ltac:(eapply trie_prefix; [ | exact T ]; apply prefix_app)) as (v & p & L). pose proof L as (nd & L1 & L2 & L3 & L4 & L5).
        apply (loc_continue _ _ _ _ _ _ W v p b nd x L1 L) in T. destruct (p =? elen nd) eqn:E.
        + destruct T as (c & Hc). destruct (w_child _ _ _ _ _ _ W v nd x c L1 Hc) as (cn & C1 & C2 & C3 & C4).
          destruct (parent_path _ _ _ _ _ _ W _ _ _ C1 C3) as (_ & _ & Ep & El). destruct (elen_node _ _ _ _ _ _ W _ _ _ C1 C3) as (M1 & M2).
          apply Nat.eqb_eq in E. assert (Eb : b = path v) by (apply prefix_longer_eq; [ easy | lia ]). exists c, 1, cn. subst b. conj; auto; try lia.
          * rewrite Ep, sub_cons, C4 by lia. exists (sub (S (sn_left cn)) (sn_right cn)). now rewrite <- app_assoc.
          * rewrite app_length. cbn. lia.
        + apply Nat.eqb_neq in E. destruct (loc_next _ _ _ _ _ _ W v p b nd L1 L ltac:(lia)) as (N1 & _). exists v, (S p), nd. conj; auto; try lia.
          * apply prefix_snoc; [ easy | ]. now rewrite N1, T.
          * rewrite app_length. cbn. lia.
    Qed.
    (** A word which goes on in two ways is at a node. *)
    Lemma branching b s t : starts b s -> starts b t -> get (s + length b) <> get (t + length b) -> s + length b < n -> t + length b < n ->
      exists v nd, nth_error nodes v = Some nd /\ path v = b.
    Proof.
      intros Hs Ht Hne Ls Lt. destruct (place b) as (v & p & L); [ exists s; exact Hs | ]. pose proof L as (nd & L1 & L2 & L3 & L4 & L5).
      exists v, nd. split; [ easy | ]. symmetry. apply prefix_longer_eq; [ easy | ]. destruct (Nat.eq_dec p (elen nd)) as [E|E]; [ lia | exfalso ].
      assert (G : forall u, starts b u -> u + length b < n -> get (u + length b) = get (sn_left nd + p)).
      { intros u (U1 & U2) Lu. assert (T : trie k (b ++ [get (u + length b)])).
        { exists u. split; [ easy | ]. apply prefix_snoc; [ easy | ]. rewrite sub_nth by lia. easy. }
        apply (loc_continue _ _ _ _ _ _ W v p b nd _ L1 L) in T. apply Nat.eqb_neq in E. now rewrite E in T. }
      apply Hne. now rewrite (G s Hs Ls), (G t Ht Lt).
    Qed.

    Variable ty : repeat_type.
    Hypothesis R : readable.
    Definition after_in (b : list (option N)) (s : nat) : option N := get (s + length b).

    Lemma reported_inside b : reported (starts b) (lf sl) (after_in b) ty -> b <> [] -> (forall s, starts b s -> s + length b = n -> get (n - 1) = None) -> ~ In None b ->
      exists s t, starts b s /\ starts b t /\ s + length b < n /\ t + length b < n /\ after_in b s <> after_in b t.
    Proof.
      intros H Hb Hend HN. destruct (reported_two _ _ _ _ H) as (s & t & Hs & Ht & Hne).
      assert (G : forall u, starts b u -> u + length b < n).
      { intros u Hu. pose proof (w_bound _ _ _ _ _ _ W). pose proof Hu as (U1 & U2). pose proof (prefix_length _ _ U2) as HL. rewrite sub_length in HL.
        destruct (Nat.eq_dec (u + length b) n) as [Z|]; [ exfalso | lia ]. specialize (Hend u Hu Z).
        pose proof (prefix_longer_eq _ _ U2 ltac:(rewrite sub_length; lia)) as Eb. apply HN. rewrite Eb.
        apply (nth_error_In _ (length b - 1)). destruct b as [|x b]; [ easy | ]. cbn [length] in *. rewrite sub_nth by lia. f_equal. rewrite <- Hend. f_equal. lia. }
      exists s, t. conj; auto.
    Qed.

    Lemma tree_repeats_ok : (n = 0 \/ get (n - 1) = None) -> exists l, tree_repeats sl ord ty nodes = Ok l /\ StronglySorted pair_le l /\ NoDup l /\
      (forall r, In r l -> exists a, a <> [] /\ starts (map Some a) (fst r) /\ snd r = fst r + length a /\ snd r < n /\
         reported (starts (map Some a)) (lf sl) (after_in (map Some a)) ty) /\
      (forall a, a <> [] -> reported (starts (map Some a)) (lf sl) (after_in (map Some a)) ty ->
         exists r, In r l /\ starts (map Some a) (fst r) /\ snd r = fst r + length a) /\
      (forall r r', In r l -> In r' l -> sub (fst r) (snd r) = sub (fst r') (snd r') -> r = r').
    Proof.
      intros Hend. pose proof (w_bound _ _ _ _ _ _ W) as HB. destruct (w_root _ _ _ _ _ _ W) as (r0 & R1 & R2 & R3 & R4 & R5).
      destruct (dfs_repeats_ok sl ord O k nodes path W K ty (S n) 0 r0 0 (mkFound [] [] []) R1) as (f & F1 & F2 & F3 & F4).
      { rewrite (w_root_path _ _ _ _ _ _ W), (root_elen _ _ _ _ _ _ W r0 R1). reflexivity. }
      { lia. }
      unfold tree_repeats. rewrite F1. cbn [bind].
      assert (Node : forall u, anc nodes 0 u -> exists nd, nth_error nodes u = Some nd) by (intros u A; inversion A; subst; eauto).
      (* what is collected *)
      assert (S1 : forall r, In r (f_repeats f) -> exists u, u <> 0 /\ (exists nd, nth_error nodes u = Some nd) /\ reported (starts (path u)) (lf sl) (after_in (path u)) ty /\
         starts (path u) (fst r) /\ snd r = fst r + length (path u) /\ fst r < snd r /\ snd r < n).
      { intros r Hr. destruct (proj1 F4 r Hr) as [[]|(u & A & (U1 & U2) & U3 & U4)]. destruct (Node u A) as (nd & Hu). exists u.
        assert (Hin : sn_children nd <> []) by (intros Z; now apply (leaf_not_wanted sl k nodes path W K ty u nd)).
        pose proof U3 as U5. apply (inner_under _ _ _ _ W K u nd _ Hu Hin) in U5. destruct U5 as (c & C1 & C2).
        destruct (child_after _ _ _ _ W K u nd _ c _ Hu C1 C2) as (_ & C3).
        destruct (w_node _ _ _ _ _ _ W u nd U1 Hu) as (q & qd & Q1 & _). destruct (elen_node _ _ _ _ _ _ W _ _ _ Hu Q1) as (M1 & M2).
        conj; eauto; lia. }
      assert (Perm : forall r, In r (sort_pairs (f_repeats f)) <-> In r (f_repeats f)).
      { intros r. apply (Permutation_in' eq_refl (sort_pairs_perm _)). }
      destruct (first_of_each_ok (sort_pairs (f_repeats f)) []) as (l & L1 & L2 & L3 & L4 & L5 & L6).
      { intros r Hr. apply Perm in Hr. destruct (S1 r Hr) as (u & _ & _ & _ & _ & _ & U5 & U6). destruct (R (fst r) (snd r) U5 U6) as (o & Ho & _). eauto. }
      { apply sort_pairs_sorted. }
      exists l. conj; auto.
      - intros r Hr. destruct (L4 r Hr) as (A1 & w & A2 & _). apply Perm in A1. destruct (S1 r A1) as (u & U1 & U2 & U3 & U4 & U5 & U6 & U7).
        destruct (R (fst r) (snd r) U6 U7) as (o & Ho & Ho2). rewrite A2 in Ho. injection Ho as <-.
        assert (Ew : map Some w = path u). { rewrite Ho2, U5. symmetry. apply (prefix_sub _ _ _ _ (proj2 U4)). }
        assert (Lw : length w = length (path u)) by (rewrite <- Ew; now rewrite map_length).
        exists w. rewrite Ew. conj; auto; [ | lia ]. intros ->. cbn in Lw. lia.
      - intros a Ha Hr.
        assert (HN : ~ In None (map Some a)) by (rewrite in_map_iff; intros (? & ? & _); easy).
        destruct (reported_inside (map Some a) Hr) as (s & t & P1 & P2 & P3 & P4 & P5); [ now destruct a | | easy | ].
        { intros s (Hs & _) _. destruct Hend; [ lia | easy ]. }
        destruct (branching (map Some a) s t P1 P2 P5 P3 P4) as (u & nd & U1 & U2).
        assert (Hu0 : u <> 0). { intros ->. rewrite (w_root_path _ _ _ _ _ _ W) in U2. now destruct a. }
        destruct (proj2 (proj2 F4) u) as (r & (_ & V1 & V2) & V3).
        { apply (root_anc _ _ _ _ _ _ W (length (path u)) u nd); [ lia | easy ]. }
        { split; [ easy | ]. rewrite <- U2 in Hr. exact Hr. }
        destruct (S1 r V3) as (u' & _ & _ & _ & _ & _ & V4 & V5). destruct (R (fst r) (snd r) V4 V5) as (o & Ho & Ho2).
        assert (Es : sub (fst r) (snd r) = map Some a). { rewrite V2, <- U2. symmetry. apply (prefix_sub _ _ _ _ (proj2 V1)). }
        destruct o as [w|]; [ | rewrite Es in Ho2; easy ].
        destruct (L5 r w ltac:(now apply Perm) Ho) as [[]|(r' & Q1 & Q2)].
        destruct (L4 r' Q1) as (Q3 & _). apply Perm in Q3. destruct (S1 r' Q3) as (v & _ & _ & _ & X1 & X2 & X3 & X4).
        destruct (R (fst r') (snd r') X3 X4) as (o' & Ho' & Ho2'). rewrite Q2 in Ho'. injection Ho' as <-.
        rewrite Ho2, Es in Ho2'. rewrite X2, <- (prefix_sub _ _ _ _ (proj2 X1)) in Ho2'. exists r'. rewrite Ho2'. conj; auto. rewrite X2, <- Ho2', map_length. reflexivity.
      - intros r r' Hr Hr' Es. apply L6; auto. destruct (L4 r Hr) as (A1 & w & A2 & _). destruct (L4 r' Hr') as (B1 & w' & B2 & _).
        apply Perm in A1, B1. destruct (S1 r A1) as (_ & _ & _ & _ & _ & _ & A3 & A4). destruct (S1 r' B1) as (_ & _ & _ & _ & _ & _ & B3 & B4).
        destruct (R _ _ A3 A4) as (o & Ho & Ho2). destruct (R _ _ B3 B4) as (o' & Ho' & Ho2'). rewrite A2 in *. rewrite B2 in *. injection Ho as <-. injection Ho' as <-.
        do 2 f_equal. rewrite Es, <- Ho2' in Ho2. clear -Ho2. revert w' Ho2. induction w as [|x w IH]; intros [|y w'] H; try easy. cbn in H. injection H as -> H. f_equal. auto.
    Qed.
  End Fixed.
End Tree.
