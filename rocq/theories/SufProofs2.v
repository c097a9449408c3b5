(** Walking down the tree, splitting an edge, adding a leaf and setting a link. *)
From Verif Require Import Py PyFacts ReplayModel SufModel SufProofs1.

Section Tree.
  Variable sl : slice.
  Notation get := (sl_get sl).
  Notation n := (sl_len sl).
  Notation sub := (sub (sl_get sl)).
  Notation wf := (wf sl).
  Notation trie := (trie sl).
  Hypothesis F : fair sl.

  (** Consuming elements within an edge. *)
  Lemma consume k nodes path ub ul (W : wf k nodes path ub ul) v nd p b l r m :
    nth_error nodes v = Some nd -> v <> 0 -> p < elen nd -> prefix b (path v) -> length b + elen nd = length (path v) + p ->
    get (sn_left nd + p) = get l -> l < r -> trie k (b ++ sub l r) -> 0 < m -> m <= r - l -> p + m <= elen nd ->
    loc nodes path v (p + m) (b ++ sub l (l + m)).
  Proof.
    intros Hv H0 Hp HP HL HG Hlr (s & Hs & HT) Hm1 Hm2 Hm3.
    destruct (w_node _ _ _ _ _ _ W v nd H0 Hv) as (q & qd & E1 & E2 & E3 & E4 & E5 & E6 & E7 & E8 & E9).
    destruct (elen_node _ _ _ _ _ _ W _ _ _ Hv E1) as (M1 & M2).
    assert (Hb : prefix (b ++ [get l]) (path v)).
    { apply prefix_snoc; [ easy | ]. rewrite <- HG. rewrite E6, nth_error_app2 by lia. rewrite sub_nth by (unfold elen in *; lia). do 2 f_equal. lia. }
    assert (L1 : loc nodes path v (p + 1) (b ++ [get l])).
    { exists nd. repeat split; auto; try lia. rewrite app_length. cbn. lia. }
    assert (T1 : prefix (b ++ [get l]) (sub s n)).
    { eapply prefix_trans; [ | exact HT ]. exists (sub (S l) r). rewrite <- app_assoc. cbn. now rewrite (sub_cons _ l r). }
    pose proof (loc_through _ _ _ _ _ _ W v (p + 1) _ nd s Hv L1 ltac:(lia) Hs T1) as T2.
    exists nd. repeat split; auto; try lia.
    - apply (prefix_comparable _ _ (sub s n)); [ | exact T2 | rewrite app_length, sub_length; lia ].
      eapply prefix_trans; [ | exact HT ]. exists (sub (l + m) r). rewrite <- app_assoc. f_equal. apply sub_app; lia.
    - rewrite app_length, sub_length. lia.
  Qed.

  Lemma go_on k nodes path ub ul (W : wf k nodes path ub ul) : forall fuel v nd p b l r,
    nth_error nodes v = Some nd -> p <= elen nd -> prefix b (path v) -> length b + elen nd = length (path v) + p ->
    (p = 0 -> v <> 0 -> l < r /\ get (sn_left nd) = get l) ->
    l <= r -> r <= n -> trie k (b ++ sub l r) -> r < n \/ k + length b <= l ->
    2 * (r - l) + (if p =? elen nd then 1 else 0) < fuel ->
    exists v' p', st_go sl fuel nodes (Some v, p) l r = Ok (Some v', p') /\ loc nodes path v' p' (b ++ sub l r).
  Proof.
    induction fuel as [|fuel IH]; [ lia | ]. intros v nd p b l r Hv Hp HP HL H0 Hlr Hrn HT HF Hfuel.
    cbn [st_go]. destruct (l <? r) eqn:Elr.
    2: { apply Nat.ltb_ge in Elr. exists v, p. split; [ easy | ]. rewrite sub_nil, app_nil_r by lia.
         exists nd. repeat split; auto. intros ->. destruct (Nat.eq_dec v 0) as [?|Hn]; [ easy | ]. destruct (H0 eq_refl Hn). lia. }
    apply Nat.ltb_lt in Elr. cbn [fst snd unwrap bind]. unfold node_at. rewrite Hv. cbn [bind].
    destruct (p =? elen nd) eqn:Ep.
    - apply Nat.eqb_eq in Ep.
      assert (L : loc nodes path v p b).
      { exists nd. repeat split; auto. intros ->. destruct (Nat.eq_dec v 0) as [?|Hn]; [ easy | ].
        destruct (w_node _ _ _ _ _ _ W v nd Hn Hv) as (q & qd & E1 & _). destruct (elen_node _ _ _ _ _ _ W _ _ _ Hv E1). lia. }
      assert (T1 : trie k (b ++ [get l])).
      { apply (trie_prefix _ _ _ (b ++ sub l r)); [ | exact HT ]. exists (sub (S l) r). rewrite <- app_assoc. cbn. now rewrite (sub_cons _ l r). }
      pose proof (proj1 (loc_continue _ _ _ _ _ _ W v p b nd (get l) Hv L) T1) as C. rewrite (proj2 (Nat.eqb_eq _ _) Ep) in C.
      destruct C as (c & Hc). rewrite Hc.
      destruct (w_child _ _ _ _ _ _ W v nd _ c Hv Hc) as (cn & C1 & C2 & C3 & C4).
      destruct (elen_node _ _ _ _ _ _ W _ _ _ C1 C3) as (M1 & M2).
      assert (Eb : b = path v) by (apply prefix_longer_eq; [ easy | lia ]).
      destruct (parent_path _ _ _ _ _ _ W _ _ _ C1 C3) as (_ & _ & E & _).
      apply (IH c cn 0 b l r); auto; try lia.
      + rewrite E, Eb. apply prefix_app.
      + destruct (0 =? elen cn) eqn:Z; [ apply Nat.eqb_eq in Z; lia | lia ].
    - apply Nat.eqb_neq in Ep.
      assert (Hv0 : v <> 0). { intros ->. pose proof (root_elen _ _ _ _ _ _ W _ Hv). lia. }
      destruct (w_node _ _ _ _ _ _ W v nd Hv0 Hv) as (q & qd & E1 & E2 & E3 & E4 & E5 & E6 & E7 & E8 & E9).
      destruct (elen_node _ _ _ _ _ _ W _ _ _ Hv E1) as (M1 & M2).
      assert (HG : get (sn_left nd + p) = get l).
      { destruct (Nat.eq_dec p 0) as [->|Hp0]; [ rewrite Nat.add_0_r; now apply H0 | ].
        assert (L : loc nodes path v p b) by (exists nd; repeat split; auto; lia).
        assert (T1 : trie k (b ++ [get l])).
        { apply (trie_prefix _ _ _ (b ++ sub l r)); [ | exact HT ]. exists (sub (S l) r). rewrite <- app_assoc. cbn. now rewrite (sub_cons _ l r). }
        pose proof (proj1 (loc_continue _ _ _ _ _ _ W v p b nd (get l) Hv L) T1) as C.
        now rewrite (proj2 (Nat.eqb_neq _ _) Ep) in C. }
      rewrite F; [ | unfold elen in *; lia | lia | unfold elen in *; lia ].
      rewrite (proj2 (oeqb_eq _ _) HG). cbn [negb].
      destruct (r - l <? elen nd - p) eqn:Elen.
      + apply Nat.ltb_lt in Elen. exists v, (p + (r - l)). split; [ easy | ].
        replace (sub l r) with (sub l (l + (r - l))) by (f_equal; lia).
        apply (consume k nodes path ub ul W v nd p b l r); auto; lia.
      + apply Nat.ltb_ge in Elen.
        pose proof (consume k nodes path ub ul W v nd p b l r (elen nd - p) Hv Hv0 ltac:(lia) HP HL HG Elr HT ltac:(lia) ltac:(lia) ltac:(lia)) as C.
        destruct C as (nd' & D1 & D2 & D3 & D4 & D5). replace nd' with nd in * by congruence.
        assert (ES : b ++ sub l r = (b ++ sub l (l + (elen nd - p))) ++ sub (l + (elen nd - p)) r).
        { rewrite <- app_assoc. f_equal. apply sub_app; lia. }
        rewrite ES. apply (IH v nd (elen nd)); auto; try lia.
        * now rewrite <- ES.
        * rewrite Nat.eqb_refl. lia.
  Qed.
  Lemma go_yes k nodes path ub ul (W : wf k nodes path ub ul) v p b l r :
    loc nodes path v p b -> l <= r -> r <= n -> trie k (b ++ sub l r) -> r < n \/ k + length b <= l ->
    exists v' p', go sl nodes (Some v, p) l r = Ok (Some v', p') /\ loc nodes path v' p' (b ++ sub l r).
  Proof.
    intros (nd & L1 & L2 & L3 & L4 & L5) H1 H2 H3 H4. apply (go_on k nodes path ub ul W _ v nd p b l r); auto.
    - intros Z Hn. now apply L3 in Z.
    - destruct (p =? elen nd); lia.
  Qed.
  Lemma go_no k nodes path ub ul (W : wf k nodes path ub ul) v p b l :
    loc nodes path v p b -> l < n -> ~ trie k (b ++ [get l]) -> go sl nodes (Some v, p) l (l + 1) = Ok (None, 0).
  Proof.
    intros L Hl HT. pose proof L as (nd & L1 & L2 & L3 & L4 & L5).
    unfold go. replace (2 * (l + 1 - l) + 2) with 4 by lia. cbn [st_go].
    replace (l <? l + 1) with true by (symmetry; apply Nat.ltb_lt; lia).
    cbn [fst snd unwrap bind]. unfold node_at. rewrite L1. cbn [bind].
    pose proof (loc_continue _ _ _ _ _ _ W v p b nd (get l) L1 L) as C.
    destruct (p =? elen nd) eqn:Ep.
    - destruct (dget oeq_dec (sn_children nd) (get l)) as [c|] eqn:D; [ | easy ]. elim HT. apply C. eauto.
    - apply Nat.eqb_neq in Ep. destruct (loc_next _ _ _ _ _ _ W v p b nd L1 L ltac:(lia)) as (_ & Hv0).
      destruct (w_node _ _ _ _ _ _ W v nd Hv0 L1) as (q & qd & _ & _ & E3 & E4 & _).
      assert (HG : get (sn_left nd + p) <> get l) by (intros E; apply HT; now apply C).
      rewrite F; [ | unfold elen in *; lia | lia | ].
      + now rewrite (proj2 (oeqb_neq _ _) HG).
      + intros [Z1 Z2]. apply HG. f_equal. lia.
  Qed.

  Lemma set_link k nodes path ub ul (W : wf k nodes path ub ul) v nd u un x :
    nth_error nodes v = Some nd -> v <> 0 -> nth_error nodes u = Some un -> path v = x :: path u ->
    wf k (upd nodes v (fun nd => mkSNode (sn_left nd) (sn_right nd) (Some u) (sn_parent nd) (sn_children nd))) path ub (remove Nat.eq_dec v ul).
  Proof.
    intros Hv Hv0 Hu HP.
    set (nodes' := upd nodes v _).
    assert (N : forall j jn, nth_error nodes' j = Some jn -> exists jd, nth_error nodes j = Some jd /\ sn_left jn = sn_left jd /\
                sn_right jn = sn_right jd /\ sn_parent jn = sn_parent jd /\ sn_children jn = sn_children jd /\
                (sn_link jn = if j =? v then Some u else sn_link jd)).
    { intros j jn H. unfold nodes' in H. rewrite nth_upd in H. destruct (j =? v) eqn:E.
      - destruct (nth_error nodes j) as [jd|] eqn:D; [ | easy ]. injection H as <-. exists jd. repeat split; auto.
      - exists jn. repeat split; auto. }
    assert (M : forall j jd, nth_error nodes j = Some jd -> exists jn, nth_error nodes' j = Some jn /\ sn_left jn = sn_left jd /\
                sn_right jn = sn_right jd /\ sn_parent jn = sn_parent jd /\ sn_children jn = sn_children jd /\
                (sn_link jn = if j =? v then Some u else sn_link jd)).
    { intros j jd H. unfold nodes'. rewrite nth_upd, H. destruct (j =? v) eqn:E; cbn [option_map]; eexists; repeat split. }
    destruct W as [w1 w2 w3 w4 w5 w6 w7 w8 w9 w10 w11]. constructor; auto.
    - destruct w1 as (r & R1 & R2 & R3 & R4 & R5). destruct (M _ _ R1) as (rn & A1 & A2 & A3 & A4 & A5 & A6).
      exists rn. rewrite A2, A3, A4, A6. repeat split; auto. destruct (0 =? v) eqn:E; [ apply Nat.eqb_eq in E; lia | easy ].
    - intros j jn Hj Hn. destruct (N _ _ Hn) as (jd & A1 & A2 & A3 & A4 & A5 & A6).
      destruct (w3 _ _ Hj A1) as (p & pd & B1 & B2 & B3). destruct (M _ _ B2) as (pn & C1 & C2 & C3 & C4 & C5 & C6).
      exists p, pn. rewrite A2, A3, A4, C5. auto.
    - intros p pn y c Hp Hc. destruct (N _ _ Hp) as (pd & A1 & A2 & A3 & A4 & A5 & A6). rewrite A5 in Hc.
      destruct (w4 _ _ _ _ A1 Hc) as (cd & B1 & B2 & B3 & B4). destruct (M _ _ B1) as (cn & C1 & C2 & C3 & C4 & C5 & C6).
      exists cn. rewrite C2, C4. auto.
    - intros j jn Hj. destruct (N _ _ Hj) as (jd & A1 & A2 & A3 & A4 & A5 & A6). rewrite A5. eauto.
    - intros j jn Hj0 Hj. destruct (N _ _ Hj) as (jd & A1 & A2 & A3 & A4 & A5 & A6). rewrite A5, A3. eauto.
    - intros s Hs. destruct (w7 s Hs) as (l & ln & B1 & B2 & B3 & B4). destruct (M _ _ B1) as (ln' & C1 & C2 & C3 & C4 & C5 & C6).
      exists l, ln'. rewrite C3. auto.
    - intros j jn Hj0 Hj Hi. destruct (N _ _ Hj) as (jd & A1 & A2 & A3 & A4 & A5 & A6). rewrite A5. eauto.
    - intros j jn u' Hj Hl. destruct (N _ _ Hj) as (jd & A1 & A2 & A3 & A4 & A5 & A6). rewrite A6 in Hl.
      destruct (j =? v) eqn:E.
      + apply Nat.eqb_eq in E. subst j. injection Hl as <-. repeat split; auto; [ | eauto ]. destruct (M _ _ Hu) as (z & Z & _). eauto.
      + destruct (w9 _ _ _ A1 Hl) as (B1 & (ud & B2) & B3). repeat split; auto. destruct (M _ _ B2) as (z & Z & _). eauto.
    - intros j jn Hj0 Hj Hc Hi. destruct (N _ _ Hj) as (jd & A1 & A2 & A3 & A4 & A5 & A6). rewrite A6. rewrite A5 in Hc.
      destruct (j =? v) eqn:E; [ eauto | ]. apply Nat.eqb_neq in E. apply (w10 _ _ Hj0 A1 Hc). intros I. apply Hi. now apply in_in_remove.
  Qed.

  Lemma add_leaf k nodes path ub ul (W : wf k nodes path ub ul) mid md pos :
    nth_error nodes mid = Some md -> path mid = sub k pos -> k <= pos -> pos < n ->
    dget oeq_dec (sn_children md) (get pos) = None -> (mid <> 0 -> sn_children md <> []) ->
    let leaf := length nodes in
    let nodes' := upd (nodes ++ [mkSNode pos n None (Some mid) []]) mid (update_child (get pos) leaf) in
    let path' := fun i => if i =? leaf then sub k n else path i in
    wf (S k) nodes' path' (remove Nat.eq_dec mid ub) ul /\
    nth_error nodes' mid = Some (update_child (get pos) leaf md) /\ path' mid = sub k pos.
  Proof.
    intros Hm HP Hk Hpos HD HC leaf nodes' path'.
    assert (Lm : mid < leaf) by (now apply nth_lt in Hm).
    assert (NN : forall j, nth_error nodes' j = if j =? mid then Some (update_child (get pos) leaf md)
                                               else if j =? leaf then Some (mkSNode pos n None (Some mid) []) else nth_error nodes j).
    { intros j. unfold nodes'. rewrite nth_upd, nth_snoc. fold leaf. destruct (j =? mid) eqn:E; [ | easy ].
      apply Nat.eqb_eq in E. subst j. destruct (mid =? leaf) eqn:E2; [ apply Nat.eqb_eq in E2; lia | ]. now rewrite Hm. }
    assert (OLD : forall j jd, nth_error nodes j = Some jd -> path' j = path j).
    { intros j jd H. apply nth_lt in H. unfold path'. destruct (j =? leaf) eqn:E; [ apply Nat.eqb_eq in E; unfold leaf in E; lia | easy ]. }
    assert (OLD2 : forall j jd, nth_error nodes j = Some jd -> exists jn, nth_error nodes' j = Some jn /\ sn_left jn = sn_left jd /\
                sn_right jn = sn_right jd /\ sn_parent jn = sn_parent jd /\ sn_link jn = sn_link jd /\
                sn_children jn = if j =? mid then dset oeq_dec (sn_children jd) (get pos) leaf else sn_children jd).
    { intros j jd H. rewrite NN. destruct (j =? mid) eqn:E.
      - apply Nat.eqb_eq in E. subst j. rewrite Hm in H. injection H as <-. eexists; repeat split.
      - destruct (j =? leaf) eqn:E2; [ apply Nat.eqb_eq in E2; apply nth_lt in H; unfold leaf in E2; lia | ]. exists jd; repeat split; auto. }
    assert (CASE : forall j jn, nth_error nodes' j = Some jn ->
       (j = leaf /\ jn = mkSNode pos n None (Some mid) []) \/
       exists jd, nth_error nodes j = Some jd /\ j <> leaf /\ sn_left jn = sn_left jd /\
                sn_right jn = sn_right jd /\ sn_parent jn = sn_parent jd /\ sn_link jn = sn_link jd /\
                sn_children jn = if j =? mid then dset oeq_dec (sn_children jd) (get pos) leaf else sn_children jd).
    { intros j jn H. rewrite NN in H. destruct (j =? mid) eqn:E.
      - apply Nat.eqb_eq in E. subst j. right. exists md. injection H as <-. repeat split; auto; lia.
      - destruct (j =? leaf) eqn:E2.
        + apply Nat.eqb_eq in E2. injection H as <-. now left.
        + right. exists jn. apply Nat.eqb_neq in E2. repeat split; auto. }
    assert (PM : path' mid = sub k pos) by (rewrite (OLD _ _ Hm); exact HP).
    assert (HN : nth_error nodes' mid = Some (update_child (get pos) leaf md)) by (rewrite NN, Nat.eqb_refl; reflexivity).
    assert (PLF : path' leaf = sub k n) by (unfold path'; now rewrite Nat.eqb_refl).
    assert (LF : nth_error nodes' leaf = Some (mkSNode pos n None (Some mid) [])).
    { rewrite NN, Nat.eqb_refl. destruct (leaf =? mid) eqn:E; [ apply Nat.eqb_eq in E; lia | easy ]. }
    split; [ | auto ].
    destruct W as [w1 w2 w3 w4 w5 w6 w7 w8 w9 w10 w11]. constructor.
    - destruct w1 as (r & R1 & R2 & R3 & R4 & R5). destruct (OLD2 _ _ R1) as (rn & A1 & A2 & A3 & A4 & A5 & A6).
      exists rn. rewrite A2, A3, A4, A5. auto.
    - destruct w1 as (r & R1 & _). now rewrite (OLD _ _ R1).
    - intros j jn Hj Hn. destruct (CASE _ _ Hn) as [(-> & ->)|(jd & A1 & Al & A2 & A3 & A4 & A5 & A6)].
      + exists mid, (update_child (get pos) leaf md). cbn [sn_parent sn_left sn_right]. rewrite PLF, PM. repeat split; auto; try lia.
        * cbn [update_child sn_children]. apply dget_dset_same.
        * apply sub_app; lia.
        * rewrite sub_length. lia.
        * rewrite sub_length. f_equal. lia.
        * rewrite sub_length. lia.
      + destruct (w3 _ _ Hj A1) as (p & pd & B1 & B2 & B3 & B4 & B5 & B6 & B7 & B8 & B9).
        destruct (OLD2 _ _ B2) as (pn & C1 & C2 & C3 & C4 & C5 & C6).
        exists p, pn. rewrite A2, A3, A4, C6, (OLD _ _ A1), (OLD _ _ B2). repeat split; auto; try lia.
        destruct (p =? mid) eqn:E; [ | easy ]. apply Nat.eqb_eq in E. subst p. replace pd with md in * by congruence.
        rewrite dget_dset_other; [ easy | ]. intros E. rewrite <- E in B5. congruence.
    - intros p pn y c Hp Hc. destruct (CASE _ _ Hp) as [(-> & ->)|(pd & A1 & Al & A2 & A3 & A4 & A5 & A6)]; [ easy | ].
      rewrite A6 in Hc.
      assert (G : dget oeq_dec (sn_children pd) y = Some c -> exists nd, nth_error nodes' c = Some nd /\ c <> 0 /\ sn_parent nd = Some p /\ get (sn_left nd) = y).
      { intros H. destruct (w4 _ _ _ _ A1 H) as (cd & B1 & B2 & B3 & B4). destruct (OLD2 _ _ B1) as (cn & C1 & C2 & C3 & C4 & C5 & C6).
        exists cn. rewrite C2, C4. auto. }
      destruct (p =? mid) eqn:E; [ | auto ]. apply Nat.eqb_eq in E. subst p. rewrite dget_dset in Hc.
      destruct (oeq_dec (get pos) y) as [Ey|Ey]; [ | auto ].
      injection Hc as <-. eexists; split; [ exact LF | ]. cbn. repeat split; auto. lia.
    - intros j jn Hj. destruct (CASE _ _ Hj) as [(-> & ->)|(jd & A1 & Al & A2 & A3 & A4 & A5 & A6)]; [ constructor | ].
      rewrite A6. destruct (j =? mid); [ apply dset_NoDup | ]; eauto.
    - intros j jn Hj0 Hj. destruct (CASE _ _ Hj) as [(-> & ->)|(jd & A1 & Al & A2 & A3 & A4 & A5 & A6)]; [ easy | ].
      rewrite A6, A3. destruct (j =? mid) eqn:E; [ | eauto ].
      apply Nat.eqb_eq in E. subst j. replace jd with md in * by congruence.
      split; intros H.
      + exfalso. pose proof (dget_dset_same oeq_dec (sn_children md) (get pos) leaf) as Q. now rewrite H in Q.
      + exfalso. apply (HC Hj0). now apply (w6 _ _ Hj0 Hm).
    - intros s Hs. destruct (Nat.eq_dec s k) as [->|Hsk].
      + exists leaf, (mkSNode pos n None (Some mid) []). repeat split; auto. lia.
      + destruct (w7 s ltac:(lia)) as (l & ln & B1 & B2 & B3 & B4). destruct (OLD2 _ _ B1) as (ln' & C1 & C2 & C3 & C4 & C5 & C6).
        exists l, ln'. rewrite C3, (OLD _ _ B1). auto.
    - intros j jn Hj0 Hj Hi Hne. destruct (CASE _ _ Hj) as [(-> & ->)|(jd & A1 & Al & A2 & A3 & A4 & A5 & A6)]; [ easy | ].
      rewrite A6 in *. destruct (j =? mid) eqn:E.
      + apply Nat.eqb_eq in E. subst j. replace jd with md in * by congruence.
        destruct (sn_children md) as [|(z, c) rest] eqn:Ec; [ now elim (HC Hj0) | ].
        exists z, (get pos). rewrite <- Ec. rewrite !dset_In_keys. rewrite <- Ec in HD. repeat split; auto.
        * intros ->. apply dget_None in HD. apply HD. rewrite Ec. now left.
        * right. rewrite Ec. now left.
      + apply Nat.eqb_neq in E. apply (w8 _ _ Hj0 A1); [ | easy ]. intros I. apply Hi. now apply in_in_remove.
    - intros j jn u Hj Hl. destruct (CASE _ _ Hj) as [(-> & ->)|(jd & A1 & Al & A2 & A3 & A4 & A5 & A6)]; [ easy | ].
      rewrite A5 in Hl. destruct (w9 _ _ _ A1 Hl) as (B1 & (ud & B2) & B3). rewrite (OLD _ _ A1), (OLD _ _ B2).
      repeat split; auto. destruct (OLD2 _ _ B2) as (un & C1 & _). eauto.
    - intros j jn Hj0 Hj Hne Hi. destruct (CASE _ _ Hj) as [(-> & ->)|(jd & A1 & Al & A2 & A3 & A4 & A5 & A6)]; [ easy | ].
      rewrite A5, A6 in *. apply (w10 _ _ Hj0 A1); [ | easy ].
      destruct (j =? mid) eqn:E; [ | easy ]. apply Nat.eqb_eq in E. subst j. replace jd with md in * by congruence. auto.
    - lia.
  Qed.

  (** Splitting within an edge. *)
  Lemma split_edge k nodes path ub ul (W : wf k nodes path ub ul) v nd p b :
    nth_error nodes v = Some nd -> loc nodes path v p b -> p < elen nd ->
    exists nodes', split sl nodes (Some v, p) = Ok (nodes', Some (length nodes)) /\
      let path' := fun i => if i =? length nodes then b else path i in
      wf k nodes' path' (length nodes :: ub) (length nodes :: ul) /\
      (exists nn, nth_error nodes' (length nodes) = Some nn /\ sn_children nn = [(get (sn_left nd + p), v)]) /\
      (forall j jd, nth_error nodes j = Some jd -> exists jn, nth_error nodes' j = Some jn).
  Proof.
    intros Hv L Hp. pose proof L as (nd' & L1 & L2 & L3 & L4 & L5). replace nd' with nd in * by congruence.
    destruct (loc_next _ _ _ _ _ _ W v p b nd Hv L Hp) as (_ & Hv0).
    assert (Hp0 : 0 < p) by (destruct p; [ now elim Hv0; apply L3 | lia ]).
    destruct (w_node _ _ _ _ _ _ W v nd Hv0 Hv) as (q & qd & E1 & E2 & E3 & E4 & E5 & E6 & E7 & E8 & E9).
    destruct (elen_node _ _ _ _ _ _ W _ _ _ Hv E1) as (M1 & M2).
    set (new := length nodes).
    assert (Lv : v < new) by (now apply nth_lt in Hv). assert (Lq : q < new) by (now apply nth_lt in E2).
    assert (Hvq : v <> q). { intros ->. lia. }
    set (nv := mkSNode (sn_left nd + p) (sn_right nd) (sn_link nd) (Some new) (sn_children nd)).
    set (nn := mkSNode (sn_left nd) (sn_left nd + p) None (Some q) [(get (sn_left nd + p), v)]).
    set (nq := update_child (get (sn_left nd)) new qd).
    set (nodes' := upd (upd (upd (nodes ++ [mkSNode (sn_left nd) (sn_left nd + p) None (Some q) []]) q (update_child (get (sn_left nd)) new)) new
                     (update_child (get (sn_left nd + p)) v)) v
                     (fun nd => mkSNode (sn_left nd + p) (sn_right nd) (sn_link nd) (Some new) (sn_children nd))).
    exists nodes'. split.
    { unfold split. cbn [fst snd unwrap bind]. unfold node_at at 1. rewrite Hv. cbn [bind].
      rewrite (proj2 (Nat.eqb_neq p (elen nd))) by lia. rewrite (proj2 (Nat.eqb_neq p 0)) by lia.
      rewrite E1. cbn [unwrap bind]. unfold node_at. rewrite nth_snoc. fold new.
      rewrite (proj2 (Nat.eqb_neq q new)) by lia. rewrite E2. cbn [bind]. reflexivity. }
    assert (NN : forall j, nth_error nodes' j = if j =? v then Some nv else if j =? new then Some nn else if j =? q then Some nq else nth_error nodes j).
    { intros j. unfold nodes'. rewrite !nth_upd, nth_snoc. fold new.
      destruct (j =? v) eqn:A1; [ apply Nat.eqb_eq in A1; subst j | ].
      - rewrite (proj2 (Nat.eqb_neq v new)) by lia. rewrite (proj2 (Nat.eqb_neq v q)) by lia. rewrite Hv. reflexivity.
      - destruct (j =? new) eqn:A2; [ apply Nat.eqb_eq in A2; subst j; rewrite (proj2 (Nat.eqb_neq new q)) by lia; reflexivity | ].
        destruct (j =? q) eqn:A3; [ apply Nat.eqb_eq in A3; subst j; rewrite E2; reflexivity | reflexivity ]. }
    set (path' := fun i => if i =? new then b else path i).
    assert (NV : nth_error nodes' v = Some nv) by (rewrite NN, Nat.eqb_refl; reflexivity).
    assert (NW : nth_error nodes' new = Some nn).
    { rewrite NN, Nat.eqb_refl. now rewrite (proj2 (Nat.eqb_neq new v)) by lia. }
    assert (PN : path' new = b) by (unfold path'; now rewrite Nat.eqb_refl).
    assert (OLD : forall j jd, nth_error nodes j = Some jd -> path' j = path j).
    { intros j jd H. apply nth_lt in H. unfold path'. now rewrite (proj2 (Nat.eqb_neq j new)) by (unfold new; lia). }
    assert (OLD2 : forall j jd, nth_error nodes j = Some jd -> exists jn, nth_error nodes' j = Some jn /\
                sn_left jn = (if j =? v then sn_left jd + p else sn_left jd) /\
                sn_right jn = sn_right jd /\ sn_parent jn = (if j =? v then Some new else sn_parent jd) /\ sn_link jn = sn_link jd /\
                sn_children jn = if j =? q then dset oeq_dec (sn_children jd) (get (sn_left nd)) new else sn_children jd).
    { intros j jd H. rewrite NN. destruct (j =? v) eqn:A1.
      - apply Nat.eqb_eq in A1. subst j. replace jd with nd in * by congruence. exists nv. rewrite (proj2 (Nat.eqb_neq v q)) by lia. repeat split.
      - rewrite (proj2 (Nat.eqb_neq j new)) by (apply nth_lt in H; unfold new; lia).
        destruct (j =? q) eqn:A3.
        + apply Nat.eqb_eq in A3. subst j. replace jd with qd in * by congruence. exists nq. repeat split.
        + exists jd. repeat split; auto. }
    assert (CASE : forall j jn, nth_error nodes' j = Some jn ->
       (j = new /\ jn = nn) \/
       exists jd, nth_error nodes j = Some jd /\ j <> new /\ sn_left jn = (if j =? v then sn_left jd + p else sn_left jd) /\
                sn_right jn = sn_right jd /\ sn_parent jn = (if j =? v then Some new else sn_parent jd) /\ sn_link jn = sn_link jd /\
                sn_children jn = if j =? q then dset oeq_dec (sn_children jd) (get (sn_left nd)) new else sn_children jd).
    { intros j jn H. destruct (Nat.eq_dec j new) as [->|Hj]; [ left; split; congruence | right ].
      assert (Hlt : j < length nodes).
      { apply nth_lt in H. unfold nodes' in H. rewrite !upd_length, app_length in H. cbn in H. unfold new in Hj. lia. }
      destruct (nth_error nodes j) as [jd|] eqn:D; [ | apply nth_error_None in D; lia ].
      destruct (OLD2 _ _ D) as (jn' & A1 & A2). replace jn' with jn in A2 by congruence. exists jd. repeat split; auto; apply A2. }
    assert (Ebq : b = path q ++ sub (sn_left nd) (sn_left nd + p)).
    { apply (prefix_same_length _ _ (path v)); auto.
      - rewrite E6. exists (sub (sn_left nd + p) (sn_right nd)). rewrite <- app_assoc. f_equal. apply sub_app; unfold elen in *; lia.
      - rewrite app_length, sub_length. lia. }
    assert (Ev : path v = b ++ sub (sn_left nd + p) (sn_right nd)).
    { rewrite Ebq, E6, <- app_assoc. f_equal. apply sub_app; unfold elen in *; lia. }
    assert (Eb : b = sub (sn_right nd - length (path v)) (sn_left nd + p)).
    { pose proof L4 as P. rewrite E8 in P at 1. apply prefix_sub in P. rewrite P at 1. f_equal. unfold elen in *. lia. }
    assert (Ebl : length b = length (path q) + p) by lia.
    assert (Hkey : forall c, dget oeq_dec (sn_children qd) (get (sn_left nd)) = Some c -> c = v) by (intros c Hc; congruence).
    split; [ | split; [ exists nn; auto | intros j jd H; destruct (OLD2 _ _ H) as (jn & A & _); eauto ] ].
    pose proof W as [w1 w2 w3 w4 w5 w6 w7 w8 w9 w10 w11]. constructor.
    - destruct w1 as (r & R1 & R2 & R3 & R4 & R5). destruct (OLD2 _ _ R1) as (rn & A1 & A2 & A3 & A4 & A5 & A6).
      rewrite (proj2 (Nat.eqb_neq 0 v)) in A2, A4 by lia. exists rn. rewrite A2, A3, A4, A5. auto.
    - destruct w1 as (r & R1 & _). now rewrite (OLD _ _ R1).
    - intros j jn Hj Hn. destruct (CASE _ _ Hn) as [(-> & ->)|(jd & A1 & Al & A2 & A3 & A4 & A5 & A6)].
      + exists q, nq. cbn [nn sn_parent sn_left sn_right]. rewrite PN, (OLD _ _ E2). repeat split; auto; try (unfold elen in *; lia).
        * rewrite NN. rewrite (proj2 (Nat.eqb_neq q v)) by lia. rewrite (proj2 (Nat.eqb_neq q new)) by lia. now rewrite Nat.eqb_refl.
        * unfold nq. cbn [update_child sn_children]. apply dget_dset_same.
        * rewrite Eb at 1. f_equal. unfold elen in *. lia.
      + destruct (Nat.eq_dec j v) as [->|Hjv].
        * replace jd with nd in * by congruence. rewrite Nat.eqb_refl in *.
          exists new, nn. rewrite A2, A3, A4, PN, (OLD _ _ Hv). repeat split; auto; try (unfold elen in *; lia).
          unfold nn. cbn. now destruct (oeq_dec (get (sn_left nd + p)) (get (sn_left nd + p))).
        * rewrite (proj2 (Nat.eqb_neq j v) Hjv) in *.
          destruct (w3 _ _ Hj A1) as (p' & pd & B1 & B2 & B3 & B4 & B5 & B6 & B7 & B8 & B9).
          destruct (OLD2 _ _ B2) as (pn & C1 & C2 & C3 & C4 & C5 & C6).
          exists p', pn. rewrite A2, A3, A4, C6, (OLD _ _ A1), (OLD _ _ B2). repeat split; auto; try lia.
          destruct (p' =? q) eqn:E; [ | easy ]. apply Nat.eqb_eq in E. subst p'. replace pd with qd in * by congruence.
          rewrite dget_dset_other; [ easy | ]. intros E. rewrite <- E in B5. congruence.
    - intros p' pn y c Hp' Hc. destruct (CASE _ _ Hp') as [(-> & ->)|(pd & A1 & Al & A2 & A3 & A4 & A5 & A6)].
      { unfold nn in Hc. cbn in Hc. destruct (oeq_dec y (get (sn_left nd + p))) as [->|]; [ | easy ]. injection Hc as <-.
        exists nv. repeat split; auto. }
      rewrite A6 in Hc.
      assert (G : dget oeq_dec (sn_children pd) y = Some c -> c <> v -> exists nd, nth_error nodes' c = Some nd /\ c <> 0 /\ sn_parent nd = Some p' /\ get (sn_left nd) = y).
      { intros H Hcv. destruct (w4 _ _ _ _ A1 H) as (cd & B1 & B2 & B3 & B4). destruct (OLD2 _ _ B1) as (cn & C1 & C2 & C3 & C4 & C5 & C6).
        rewrite (proj2 (Nat.eqb_neq c v) Hcv) in *. exists cn. rewrite C2, C4. auto. }
      assert (Hpq : dget oeq_dec (sn_children pd) y = Some v -> p' = q /\ y = get (sn_left nd)).
      { intros H. destruct (w4 _ _ _ _ A1 H) as (cd & B1 & B2 & B3 & B4). replace cd with nd in * by congruence. split; congruence. }
      destruct (p' =? q) eqn:E.
      + apply Nat.eqb_eq in E. subst p'. rewrite dget_dset in Hc.
        destruct (oeq_dec (get (sn_left nd)) y) as [Ey|Ey].
        * injection Hc as <-. exists nn. repeat split; auto. lia.
        * apply G; [ easy | ]. intros ->. destruct (Hpq Hc) as (_ & Z). now elim Ey.
      + apply Nat.eqb_neq in E. apply G; [ easy | ]. intros ->. now destruct (Hpq Hc).
    - intros j jn Hj. destruct (CASE _ _ Hj) as [(-> & ->)|(jd & A1 & Al & A2 & A3 & A4 & A5 & A6)]; [ repeat constructor; easy | ].
      rewrite A6. destruct (j =? q); [ apply dset_NoDup | ]; eauto.
    - intros j jn Hj0 Hj. destruct (CASE _ _ Hj) as [(-> & ->)|(jd & A1 & Al & A2 & A3 & A4 & A5 & A6)].
      + cbn [nn sn_children sn_right]. split; [ easy | ]. unfold elen in *. lia.
      + rewrite A6, A3. destruct (j =? q) eqn:E; [ | eauto ].
        apply Nat.eqb_eq in E. subst j. replace jd with qd in * by congruence.
        assert (Hne : sn_children qd <> []) by (intros Z; now rewrite Z in E5).
        split; intros H.
        * exfalso. pose proof (dget_dset_same oeq_dec (sn_children qd) (get (sn_left nd)) new) as Q. now rewrite H in Q.
        * exfalso. apply Hne. now apply (w6 _ _ Hj0 E2).
    - intros s Hs. destruct (w7 s ltac:(lia)) as (l & ln & B1 & B2 & B3 & B4). destruct (OLD2 _ _ B1) as (ln' & C1 & C2 & C3 & C4 & C5 & C6).
      exists l, ln'. rewrite C3, (OLD _ _ B1). auto.
    - intros j jn Hj0 Hj Hi Hne. destruct (CASE _ _ Hj) as [(-> & ->)|(jd & A1 & Al & A2 & A3 & A4 & A5 & A6)].
      + elim Hi. now left.
      + rewrite A6 in *. assert (Hi' : ~ In j ub) by (intros I; apply Hi; now right).
        destruct (j =? q) eqn:E; [ | now apply (w8 _ _ Hj0 A1) ].
        apply Nat.eqb_eq in E. subst j. replace jd with qd in * by congruence.
        destruct (w8 _ _ Hj0 E2 Hi') as (x & y & X1 & X2 & X3); [ intros Z; now rewrite Z in E5 | ].
        exists x, y. rewrite !dset_In_keys. auto.
    - intros j jn u Hj Hl. destruct (CASE _ _ Hj) as [(-> & ->)|(jd & A1 & Al & A2 & A3 & A4 & A5 & A6)]; [ easy | ].
      rewrite A5 in Hl. destruct (w9 _ _ _ A1 Hl) as (B1 & (ud & B2) & B3). rewrite (OLD _ _ A1), (OLD _ _ B2).
      repeat split; auto. destruct (OLD2 _ _ B2) as (un & C1 & _). eauto.
    - intros j jn Hj0 Hj Hne Hi. destruct (CASE _ _ Hj) as [(-> & ->)|(jd & A1 & Al & A2 & A3 & A4 & A5 & A6)]; [ elim Hi; now left | ].
      rewrite A5. rewrite A6 in Hne. apply (w10 _ _ Hj0 A1); [ | intros I; apply Hi; now right ].
      destruct (j =? q) eqn:E; [ | easy ]. apply Nat.eqb_eq in E. subst j. replace jd with qd in * by congruence. intros Z. now rewrite Z in E5.
    - exact w11.
  Qed.
End Tree.
