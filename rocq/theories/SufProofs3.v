(** Following and making links, and building the tree. *)
From Verif Require Import Py PyFacts ReplayModel SufModel SufProofs1 SufProofs2.

Ltac conj := repeat match goal with |- _ /\ _ => split end.

Section Tree.
  Variable sl : slice.
  Notation get := (sl_get sl).
  Notation n := (sl_len sl).
  Notation sub := (sub (sl_get sl)).
  Notation wf := (wf sl).
  Notation trie := (trie sl).
  Hypothesis F : fair sl.

  Lemma loc_node k nodes path ub ul (W : wf k nodes path ub ul) v nd :
    nth_error nodes v = Some nd -> loc nodes path v (elen nd) (path v).
  Proof.
    intros H. exists nd. conj; auto; [ | apply prefix_refl ]. intros Z. destruct (Nat.eq_dec v 0) as [?|Hn]; [ easy | ].
    destruct (w_node _ _ _ _ _ _ W v nd Hn H) as (q & qd & E1 & _). destruct (elen_node _ _ _ _ _ _ W _ _ _ H E1). lia.
  Qed.

  Lemma split_place k nodes path ub ul (W : wf k nodes path ub ul) v p b :
    loc nodes path v p b -> exists nodes' path' ub' ul' mid md,
      split sl nodes (Some v, p) = Ok (nodes', Some mid) /\ wf k nodes' path' ub' ul' /\ nth_error nodes' mid = Some md /\ path' mid = b /\
      (forall j jd, nth_error nodes j = Some jd -> path' j = path j /\ exists jn, nth_error nodes' j = Some jn) /\
      ((nodes' = nodes /\ mid = v /\ ub' = ub /\ ul' = ul /\ p = elen md) \/
       (mid <> 0 /\ mid = length nodes /\ ub' = mid :: ub /\ ul' = mid :: ul /\ exists z c, sn_children md = [(z, c)])).
  Proof.
    intros L. pose proof L as (nd & L1 & L2 & L3 & L4 & L5). destruct (Nat.eq_dec p (elen nd)) as [Ep|Ep].
    - exists nodes, path, ub, ul, v, nd. conj; auto.
      + unfold split. cbn [fst snd unwrap bind]. unfold node_at. rewrite L1. cbn [bind]. now rewrite (proj2 (Nat.eqb_eq _ _) Ep).
      + symmetry. apply prefix_longer_eq; [ easy | lia ].
      + eauto.
      + left. auto.
    - destruct (split_edge sl k nodes path ub ul W v nd p b L1 L ltac:(lia)) as (nodes' & S1 & S2 & (nn & S3 & S4) & S5).
      exists nodes', (fun i => if i =? length nodes then b else path i), (length nodes :: ub), (length nodes :: ul), (length nodes), nn.
      conj; auto.
      + now rewrite Nat.eqb_refl.
      + intros j jd H. rewrite (proj2 (Nat.eqb_neq j (length nodes))) by (apply nth_lt in H; lia). eauto.
      + right. conj; auto; [ | eauto ]. apply nth_lt in L1. lia.
  Qed.

  Lemma unlinked_none k nodes path ub v nd u (W : wf k nodes path ub [v]) : nth_error nodes v = Some nd -> sn_link nd = Some u -> wf k nodes path ub [].
  Proof.
    intros H1 H2. destruct W as [w1 w2 w3 w4 w5 w6 w7 w8 w9 w10 w11]. constructor; auto.
    intros j jn A B C _. destruct (Nat.eq_dec j v) as [->|Hj]; [ exists u; congruence | ]. apply (w10 j jn A B C). intros [?|[]]. congruence.
  Qed.
  Lemma unlinked_leaf k nodes path ub v nd (W : wf k nodes path ub [v]) : nth_error nodes v = Some nd -> v = 0 -> wf k nodes path ub [].
  Proof.
    intros H1 H2. destruct W as [w1 w2 w3 w4 w5 w6 w7 w8 w9 w10 w11]. constructor; auto.
    intros j jn A B C _. apply (w10 j jn A B C). intros [?|[]]. congruence.
  Qed.

  Lemma get_link_ok k nodes path ul (W : wf k nodes path [] ul) v vn x b z f :
    nth_error nodes v = Some vn -> v <> 0 -> sn_right vn < n -> ul = [] \/ ul = [v] ->
    path v = x :: b -> trie k (b ++ [z]) ->
    exists nodes' path' ub' l ln, get_link sl (S (S f)) nodes v = Ok (nodes', l) /\ wf k nodes' path' ub' ub' /\
      nth_error nodes' l = Some ln /\ path' l = b /\ (ub' = [] \/ (ub' = [l] /\ l <> 0 /\ exists c, sn_children ln = [(z, c)])).
  Proof.
    intros Hv Hv0 Hr Hul HP HT.
    cbn [get_link]. unfold node_at at 1. rewrite Hv. cbn [bind].
    destruct (sn_link vn) as [l|] eqn:El.
    - destruct (w_link _ _ _ _ _ _ W v vn l Hv El) as (_ & (ln & A1) & (y & A2)).
      exists nodes, path, [], l, ln. conj; auto; [ | congruence ].
      destruct Hul as [->| ->]; [ easy | ]. now apply (unlinked_none _ _ _ _ v vn l).
    - destruct (w_node _ _ _ _ _ _ W v vn Hv0 Hv) as (p & pd & E1 & E2 & E3 & E4 & E5 & E6 & E7 & E8 & E9).
      rewrite E1. destruct (elen_node _ _ _ _ _ _ W _ _ _ Hv E1) as (M1 & M2).
      (* the link of the parent *)
      assert (LP : exists to tn lo, bind (node_at nodes p) (fun nd => match sn_link nd with Some l => Ok (nodes, l) | None =>
                   match sn_parent nd with None => Ok (nodes, 0) | Some p' =>
                     bind (get_link sl f nodes p') (fun r => let '(nodes, to) := r in bind (node_at nodes to) (fun tn =>
                     bind (go sl nodes (Some to, elen tn) (sn_left nd + (if p' =? 0 then 1 else 0)) (sn_right nd)) (fun next =>
                     bind (split sl nodes next) (fun r => let '(nodes, link) := r in
                     let nodes := upd nodes p (fun nd => mkSNode (sn_left nd) (sn_right nd) link (sn_parent nd) (sn_children nd)) in
                     bind (unwrap link) (fun l => Ok (nodes, l)))))) end end) = Ok (nodes, to) /\
                 nth_error nodes to = Some tn /\ lo = sn_left vn + (if p =? 0 then 1 else 0) /\ lo <= sn_right vn /\ path to ++ sub lo (sn_right vn) = b).
      { unfold node_at at 1. rewrite E2. cbn [bind]. destruct (Nat.eq_dec p 0) as [->|Hp0].
        - destruct (w_root _ _ _ _ _ _ W) as (r & R1 & R2 & R3 & R4 & R5). replace pd with r in * by congruence.
          rewrite R5, R4. exists 0, r, (sn_left vn + 1). conj; auto; [ lia | ].
          rewrite (w_root_path _ _ _ _ _ _ W) in *. cbn [app] in *. rewrite E6, sub_cons in HP by lia. injection HP as HP1 HP2.
          now rewrite Nat.add_1_r.
        - destruct (w_linked _ _ _ _ _ _ W p pd Hp0 E2) as (u & Hu).
          + intros Z. now rewrite Z in E5.
          + destruct Hul as [->| ->]; [ easy | ]. intros [->|[]]. rewrite Hv in E2. injection E2 as <-. lia.
          + rewrite Hu. destruct (w_link _ _ _ _ _ _ W p pd u E2 Hu) as (_ & (un & A1) & (y & A2)).
            exists u, un, (sn_left vn). rewrite (proj2 (Nat.eqb_neq p 0) Hp0). conj; auto; try lia.
            rewrite E6, A2 in HP. cbn in HP. now injection HP. }
      destruct LP as (to & tn & lo & P1 & P2 & P3 & P4 & P5).
      cbn [get_link] in *. rewrite P1. cbn [bind]. unfold node_at at 1. rewrite P2. cbn [bind]. rewrite <- P3.
      assert (T1 : trie k b) by (apply (trie_prefix _ _ _ (b ++ [z])); [ apply prefix_app | exact HT ]).
      pose proof (loc_node _ _ _ _ _ W to tn P2) as Lt.
      destruct (go_yes sl F _ _ _ _ _ W to (elen tn) (path to) lo (sn_right vn) Lt P4 E4) as (v' & p' & G1 & G2); [ now rewrite P5 | now left | ].
      rewrite G1. cbn [bind]. rewrite P5 in G2.
      destruct (split_place _ _ _ _ _ W v' p' b G2) as (nodes' & path' & ub' & ul' & mid & md & S1 & S2 & S3 & S4 & S5 & S6).
      rewrite S1. cbn [bind unwrap].
      destruct (S5 _ _ Hv) as (Pv & (vn' & Hv')).
      assert (HPv : path' v = x :: path' mid) by congruence.
      assert (Hmv : mid <> v). { intros ->. assert (Q : length (path' v) = length (x :: path' v)) by congruence. cbn in Q. lia. }
      pose proof (set_link sl _ _ _ _ _ S2 v vn' mid md x Hv' Hv0 S3 HPv) as S2'.
      assert (S3' : nth_error (upd nodes' v (fun nd => mkSNode (sn_left nd) (sn_right nd) (Some mid) (sn_parent nd) (sn_children nd))) mid = Some md).
      { rewrite nth_upd. now rewrite (proj2 (Nat.eqb_neq mid v) Hmv). }
      exists (upd nodes' v (fun nd => mkSNode (sn_left nd) (sn_right nd) (Some mid) (sn_parent nd) (sn_children nd))), path', ub', mid, md.
      assert (Hrem : remove Nat.eq_dec v ul = []). { destruct Hul as [->| ->]; cbn; [ easy | ]. now destruct (Nat.eq_dec v v). }
      destruct S6 as [(-> & -> & -> & -> & _)|(S7 & S8 & -> & -> & z' & c & S9)].
      + rewrite Hrem in S2'. auto 8.
      + cbn [remove] in S2'. destruct (Nat.eq_dec v mid) as [?|_]; [ congruence | ]. rewrite Hrem in S2'.
        conj; auto. right. conj; auto. exists c. rewrite S9. do 2 f_equal.
        pose proof (proj1 (loc_continue _ _ _ _ _ _ S2' mid (elen md) b md z S3' ltac:(rewrite <- S4; eapply loc_node; eauto)) HT) as C.
        rewrite Nat.eqb_refl in C. destruct C as (c' & C). rewrite S9 in C. cbn in C. now destruct (oeq_dec z z').
  Qed.

  (** What holds before each step of the inner loop. *)
  Definition inv (k pos : nat) (nodes : list snode) (path : nat -> list (option N)) (ub : list nat) (v p : nat) : Prop :=
    wf k nodes path ub ub /\ loc nodes path v p (sub k pos) /\ k <= pos /\
    (ub = [] \/ (ub = [v] /\ v <> 0 /\ exists nd z c, nth_error nodes v = Some nd /\ p = elen nd /\ sn_children nd = [(z, c)] /\ z <> get pos)).

  Lemma trie_dec_loc k nodes path ub ul (W : wf k nodes path ub ul) v p b x : loc nodes path v p b -> trie k (b ++ [x]) \/ ~ trie k (b ++ [x]).
  Proof.
    intros L. pose proof L as (nd & L1 & _). pose proof (loc_continue _ _ _ _ _ _ W v p b nd x L1 L) as C.
    destruct (p =? elen nd).
    - destruct (dget oeq_dec (sn_children nd) x) as [c|]; [ left; apply C; eauto | right; intros T; apply C in T; now destruct T ].
    - destruct (oeq_dec (get (sn_left nd + p)) x); [ left | right ]; tauto.
  Qed.

  (** A word whose place is in the tree begins at another place too. *)
  Lemma loc_trie k nodes path ub ul (W : wf k nodes path ub ul) v p b : loc nodes path v p b -> b <> [] -> trie k b.
  Proof.
    intros (nd & L1 & L2 & L3 & L4 & L5) Hb. destruct (Nat.eq_dec v 0) as [->|Hv].
    - rewrite (w_root_path _ _ _ _ _ _ W) in L4. apply prefix_length in L4. destruct b; cbn in L4; [ easy | lia ].
    - apply (trie_prefix _ _ _ (path v) L4). now apply (node_trie _ _ _ _ _ _ W v nd).
  Qed.

  Lemma build_step_ok pos : pos < n -> forall fuel k nodes path ub v p, inv k pos nodes path ub v p -> pos - k < fuel ->
    exists nodes' path' k' v' p', build_step sl fuel nodes (Some v, p) pos = Ok (nodes', (Some v', p')) /\ inv k' (pos + 1) nodes' path' [] v' p'.
  Proof.
    intros Hpos. induction fuel as [|fuel IH]; [ lia | ]. intros k nodes path ub v p (W & L & Hk & Hub) Hfuel.
    cbn [build_step]. pose proof L as (nd & L1 & L2 & L3 & L4 & L5).
    destruct (trie_dec_loc _ _ _ _ _ W v p _ (get pos) L) as [T|T].
    - (* the element follows *)
      assert (Eub : ub = []).
      { destruct Hub as [?|(-> & Hv0 & nd' & z & c & A1 & A2 & A3 & A4)]; [ easy | exfalso ].
        replace nd' with nd in * by congruence.
        pose proof (proj1 (loc_continue _ _ _ _ _ _ W v p _ nd (get pos) L1 L) T) as C. rewrite A2, Nat.eqb_refl in C.
        destruct C as (c' & C). rewrite A3 in C. cbn in C. destruct (oeq_dec (get pos) z); [ now elim A4 | easy ]. }
      subst ub.
      destruct (go_yes sl F _ _ _ _ _ W v p (sub k pos) pos (pos + 1) L ltac:(lia) ltac:(lia)) as (v' & p' & G1 & G2).
      { rewrite Nat.add_1_r, sub_one. exact T. }
      { right. rewrite sub_length. lia. }
      rewrite G1. cbn [bind fst]. exists nodes, path, k, v', p'. split; [ easy | ].
      rewrite <- sub_app in G2 by lia. unfold inv. conj; auto. lia.
    - (* a leaf is added *)
      rewrite (go_no sl F _ _ _ _ _ W v p (sub k pos) pos L Hpos T). cbn [bind fst].
      destruct (split_place _ _ _ _ _ W v p _ L) as (nodes1 & path1 & ub1 & ul1 & mid & md & S1 & S2 & S3 & S4 & S5 & S6).
      rewrite S1. cbn [bind unwrap].
      assert (LM : loc nodes1 path1 mid (elen md) (sub k pos)) by (rewrite <- S4; eapply loc_node; eauto).
      assert (Hub1 : (ub1 = [] \/ ub1 = [mid]) /\ ul1 = ub1 /\ (mid <> 0 -> sn_children md <> []) /\ (mid <> 0 -> exists z, z <> get pos /\ trie k (sub k pos ++ [z]))).
      { assert (CH : mid <> 0 -> sn_children md <> []).
        { intros Hm Z. apply (w_leaf _ _ _ _ _ _ S2 mid md Hm S3) in Z.
          destruct (w_node _ _ _ _ _ _ S2 mid md Hm S3) as (q & qd & _ & _ & _ & _ & _ & _ & _ & _ & B). rewrite S4, sub_length, Z in B. lia. }
        assert (ZZ : mid <> 0 -> exists z, z <> get pos /\ trie k (sub k pos ++ [z])).
        { intros Hm. specialize (CH Hm). destruct (sn_children md) as [|(z, c) rest] eqn:Ec; [ easy | ].
          assert (TZ : trie k (sub k pos ++ [z])).
          { apply (loc_continue _ _ _ _ _ _ S2 mid (elen md) _ md z S3 LM).
            rewrite Nat.eqb_refl. exists c. rewrite Ec. cbn. now destruct (oeq_dec z z). }
          exists z. split; [ | easy ]. intros ->. contradiction. }
        destruct S6 as [(-> & -> & -> & -> & A)|(A1 & A2 & -> & -> & z & c & A3)].
        - conj; auto. destruct Hub as [->|(-> & _)]; auto.
        - assert (ub = []). { destruct Hub as [?|(-> & Hv0 & nd' & z' & c' & B1 & B2 & _)]; [ easy | exfalso ].
            pose proof L1 as L1'. apply nth_lt in L1. unfold split in S1. cbn [fst snd unwrap bind] in S1. unfold node_at in S1. rewrite B1 in S1. cbn [bind] in S1.
            rewrite B2, Nat.eqb_refl in S1. injection S1 as _ S1. lia. }
          subst ub. conj; auto. }
      destruct Hub1 as (Hub1 & -> & HC & HZ).
      assert (HD : dget oeq_dec (sn_children md) (get pos) = None).
      { destruct (dget oeq_dec (sn_children md) (get pos)) as [c|] eqn:D; [ exfalso | easy ]. apply T.
        apply (loc_continue _ _ _ _ _ _ S2 mid (elen md) _ md _ S3 LM). rewrite Nat.eqb_refl. eauto. }
      destruct (add_leaf sl _ _ _ _ _ S2 mid md pos S3 S4 Hk Hpos HD HC) as (A1 & A2 & A3).
      set (nodes2 := upd _ mid _) in *. set (path2 := fun i : nat => if i =? length nodes1 then sub k n else path1 i) in A1. change (path2 mid = sub k pos) in A3.
      unfold node_at at 1. rewrite nth_snoc. rewrite (proj2 (Nat.eqb_neq mid (length nodes1))) by (apply nth_lt in S3; lia).
      rewrite S3. cbn [bind]. fold nodes2.
      assert (Hrem : remove Nat.eq_dec mid ub1 = []). { destruct Hub1 as [->| ->]; cbn; [ easy | ]. now destruct (Nat.eq_dec mid mid). }
      rewrite Hrem in A1.
      destruct (Nat.eq_dec mid 0) as [->|Hm0].
      + (* at the root *)
        assert (Hkp : k = pos). { pose proof (w_root_path _ _ _ _ _ _ A1) as R. rewrite A3 in R. apply (f_equal (@length _)) in R. rewrite sub_length in R. cbn in R. lia. }
        subst k.
        destruct (w_root _ _ _ _ _ _ A1) as (r & R1 & R2 & R3 & R4 & R5).
        destruct (length nodes2) as [|f] eqn:Ef; [ apply nth_lt in R1; lia | ].
        cbn [get_link]. unfold node_at. rewrite R1. cbn [bind]. rewrite R5, R4. cbn [bind]. rewrite R1. cbn [bind]. rewrite Nat.eqb_refl.
        exists nodes2, path2, (S pos), 0, (elen r). split; [ easy | ].
        assert (W2 : wf (S pos) nodes2 path2 [] []).
        { destruct Hub1 as [->| ->]; [ exact A1 | ]. now apply (unlinked_leaf _ _ _ _ 0 r). }
        unfold inv. conj; auto; [ | lia ].
        rewrite sub_nil by lia. rewrite <- (w_root_path _ _ _ _ _ _ W2). eapply loc_node; eauto.
      + (* below the root *)
        destruct (HZ Hm0) as (z & Hz & TZ).
        assert (Hkp : k < pos). { destruct (Nat.eq_dec k pos) as [->|]; [ exfalso | lia ].
          destruct (w_node _ _ _ _ _ _ A1 mid _ Hm0 A2) as (q & qd & B1 & _). destruct (elen_node _ _ _ _ _ _ A1 _ _ _ A2 B1) as (M1 & M2).
          rewrite A3, sub_length in M2. lia. }
        assert (Hr : sn_right (update_child (get pos) (length nodes1) md) < n).
        { cbn [update_child sn_right]. destruct (w_node _ _ _ _ _ _ S2 mid md Hm0 S3) as (q & qd & _ & _ & _ & B & _).
          destruct (Nat.eq_dec (sn_right md) n) as [Z|]; [ | lia ]. apply (w_leaf _ _ _ _ _ _ S2 mid md Hm0 S3) in Z. now elim (HC Hm0). }
        assert (TZ' : trie (S k) (sub (S k) pos ++ [z])).
        { destruct TZ as (s & Hs & HP). exists (S s). split; [ lia | ]. rewrite sub_cons in HP by lia. destruct HP as (r & HP).
          pose proof (f_equal (@length _) HP) as HL. rewrite sub_length, !app_length in HL. cbn in HL.
          rewrite (sub_cons _ s n) in HP by lia. cbn in HP. injection HP as _ HP. exists r. now rewrite HP. }
        pose proof A2 as Lm. apply nth_lt in Lm.
        destruct (length nodes2) as [|f] eqn:Ef; [ lia | ].
        destruct (get_link_ok _ _ _ _ A1 mid _ (get k) (sub (S k) pos) z f A2 Hm0 Hr) as (nodes3 & path3 & ub3 & l & ln & G1 & G2 & G3 & G4 & G5); auto.
        { rewrite A3, sub_cons by lia. reflexivity. }
        rewrite G1. cbn [bind]. unfold node_at. rewrite G3. cbn [bind]. rewrite (proj2 (Nat.eqb_neq mid 0) Hm0).
        destruct (IH (S k) nodes3 path3 ub3 l (elen ln)) as (nodes' & path' & k' & v' & p' & R1 & R2); [ | lia | eauto 8 ].
        unfold inv. conj; auto; [ rewrite <- G4; eapply loc_node; eauto | ].
        destruct G5 as [->|(-> & B1 & c & B2)]; [ now left | right ]. conj; auto. exists ln, z, c. auto.
  Qed.

  Lemma build_loop : forall m pos k nodes path v p, pos + m = n -> inv k pos nodes path [] v p ->
    exists nodes' path' k' v' p',
      loopM (fun st pos => build_step sl (n + 2) (fst st) (snd st) pos) (seq pos m) (nodes, (Some v, p)) = Ok (nodes', (Some v', p')) /\
      inv k' n nodes' path' [] v' p'.
  Proof.
    induction m as [|m IH]; intros pos k nodes path v p Hm H.
    - replace n with pos by lia. exists nodes, path, k, v, p. auto.
    - cbn [seq]. rewrite loopM_cons. cbn [fst snd].
      destruct (build_step_ok pos ltac:(lia) (n + 2) k nodes path [] v p H ltac:(lia)) as (nodes1 & path1 & k1 & v1 & p1 & B1 & B2).
      rewrite B1. cbn [bind]. rewrite Nat.add_1_r in B2. apply (IH (S pos) k1 nodes1 path1 v1 p1); [ lia | exact B2 ].
  Qed.

  Lemma start_inv : inv 0 0 [sn_default] (fun _ => []) [] 0 0.
  Proof.
    unfold inv. conj; auto.
    - constructor; auto; try lia.
      + exists sn_default. conj; auto.
      + intros v nd Hv H. destruct v as [|[|v]]; easy.
      + intros p pd x c H Hc. destruct p as [|[|p]]; try easy. injection H as <-. easy.
      + intros v nd H. destruct v as [|[|v]]; try easy. injection H as <-. constructor.
      + intros v nd Hv H. destruct v as [|[|v]]; easy.
      + intros v nd Hv H. destruct v as [|[|v]]; easy.
      + intros v nd u H Hl. destruct v as [|[|v]]; try easy. injection H as <-. easy.
      + intros v nd Hv H. destruct v as [|[|v]]; easy.
    - exists sn_default. conj; auto. apply prefix_nil.
  Qed.

  (** The tree which is built: one of the first [k] suffixes; what is left of the text begins at an earlier place too. *)
  Theorem build_proof : exists nodes path k, build_tree sl = Ok nodes /\ wf k nodes path [] [] /\ (k = n \/ trie k (sub k n)).
  Proof.
    destruct (build_loop n 0 0 [sn_default] (fun _ => []) 0 0 ltac:(lia) start_inv) as (nodes & path & k & v & p & B1 & W & L & Hk & _).
    exists nodes, path, k. split; [ unfold build_tree; now rewrite B1 | split; [ exact W | ] ].
    destruct (Nat.eq_dec k n) as [->|Hn]; [ now left | right ].
    eapply loc_trie; eauto. intros E. apply (f_equal (@length _)) in E. rewrite sub_length in E. cbn in E. lia.
  Qed.
End Tree.
