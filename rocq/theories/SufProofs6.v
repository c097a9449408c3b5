(** The repeats which the search over the suffix tree adds. *)
From Coq Require Import Permutation Sorting.Sorted.
From Verif Require Import Py PyFacts ReplayModel RInfoModel RInfoSpec SufModel SufSpec SufProofs1 SufProofs2 SufProofs3 SufProofs4 SufProofs5.

Section Tree.
  Variable sl : slice.
  Notation get := (sl_get sl).
  Notation n := (sl_len sl).
  Notation sub := (sub (sl_get sl)).
  Notation wf := (wf sl).
  Notation trie := (trie sl).
  Variable ord : nat -> forall A : Type, list A -> list A.
  Hypothesis O : any_order ord.

  Definition lf (s : nat) : option N := if s =? 0 then None else get (s - 1).
  Lemma element_before_lf s : s <= n -> element_before sl (n - s) = lf s.
  Proof.
    intros H. unfold element_before, lf. destruct s as [|s].
    - replace (n - 0 + 1) with (S n) by lia. cbn [Nat.eqb]. now rewrite (proj2 (Nat.ltb_lt n (S n))) by lia.
    - rewrite (proj2 (Nat.ltb_ge n (n - S s + 1))) by lia. cbn [Nat.eqb]. f_equal. lia.
  Qed.

  Section Fixed.
    Variables (k : nat) (nodes : list snode) (path : nat -> list (option N)).
    Hypothesis W : wf k nodes path [] [].
    Hypothesis K : 0 < k.
    Notation under := (under sl k path).
    Notation anc := (anc nodes).

    Lemma under_bound v s : under v s -> s < n.
    Proof. intros (H & _). pose proof (w_bound _ _ _ _ _ _ W). lia. Qed.
    Lemma under_ex v nd : nth_error nodes v = Some nd -> exists s, under v s.
    Proof.
      intros H. destruct (Nat.eq_dec v 0) as [ -> |Hv].
      - exists 0. split; [ easy | ]. rewrite (w_root_path _ _ _ _ _ _ W). apply prefix_nil.
      - apply (node_trie _ _ _ _ _ _ W v nd H Hv).
    Qed.
    (** The subtrees of two children share nothing. *)
    Lemma siblings v vn x c x' c' u : nth_error nodes v = Some vn -> dget oeq_dec (sn_children vn) x = Some c -> dget oeq_dec (sn_children vn) x' = Some c' ->
      c <> c' -> anc c u -> ~ anc c' u.
    Proof.
      intros Hv H1 H2 Hne A1 A2.
      assert (G : forall x c x' c', dget oeq_dec (sn_children vn) x = Some c -> dget oeq_dec (sn_children vn) x' = Some c' -> c <> c' -> anc c u -> anc c' u ->
                  length (path c) <= length (path c') -> False).
      { clear -W Hv. intros x c x' c' H1 H2 Hne A1 A2 L.
        destruct (w_child _ _ _ _ _ _ W v vn x c Hv H1) as (cn & C1 & C2 & C3 & C4).
        destruct (w_child _ _ _ _ _ _ W v vn x' c' Hv H2) as (cn' & D1 & D2 & D3 & D4).
        assert (P : prefix (path c) (path c')).
        { apply (prefix_comparable _ _ (path u)); [ | | easy ]; eapply anc_prefix; eauto. }
        pose proof (prefix_anc _ _ _ _ _ _ W (length (path c)) c cn c' cn' ltac:(lia) C1 D1 P) as A.
        inversion A as [|? p ? nd' A' E1 E2]; subst; [ easy | ]. rewrite D1 in E1. injection E1 as <-. rewrite D3 in E2. injection E2 as <-.
        pose proof (prefix_length _ _ (anc_prefix _ _ _ _ _ _ W _ _ A')). destruct (elen_node _ _ _ _ _ _ W _ _ _ C1 C3). lia. }
      destruct (Nat.le_ge_cases (length (path c)) (length (path c'))) as [L|L].
      - exact (G x c x' c' H1 H2 Hne A1 A2 L).
      - exact (G x' c' x c H2 H1 (not_eq_sym Hne) A2 A1 L).
    Qed.
    Lemma leaf_one c cn : nth_error nodes c = Some cn -> c <> 0 -> sn_children cn = [] <-> exists s, under c s /\ forall t, under c t -> t = s.
    Proof.
      intros H H0. split.
      - intros E. destruct (leaf_under _ _ _ _ W K c cn H H0 E) as (_ & _ & L). eexists. rewrite L. split; [ reflexivity | ]. intros t. apply L.
      - intros (s & S1 & S2). destruct (sn_children cn) as [|e l] eqn:E; [ easy | exfalso ].
        assert (Ne : sn_children cn <> []) by congruence.
        destruct (w_branch _ _ _ _ _ _ W c cn H0 H ltac:(easy) Ne) as (x & y & Hxy & Hx & Hy).
        assert (G : forall z, In z (dkeys (sn_children cn)) -> get (s + length (path c)) = z).
        { intros z Hz. apply in_map_iff in Hz. destruct Hz as ((z', d) & Ez & Hz). cbn in Ez. subst z'.
          apply (child_In _ _ _ _ W c cn z d H) in Hz.
          destruct (w_child _ _ _ _ _ _ W c cn z d H Hz) as (dn & D1 & D2 & D3 & D4). destruct (under_ex d dn D1) as (t & T).
          destruct (child_after _ _ _ _ W K c cn z d t H Hz T) as (E1 & _).
          assert (t = s); [ | congruence ]. apply S2. apply (inner_under _ _ _ _ W K c cn t H Ne). exists d. now rewrite E1. }
        apply Hxy. rewrite <- (G x Hx). apply (G y Hy).
    Qed.

    (** What is known about a node after the search went through it. *)
    Definition good (u : nat) (f : found) : Prop :=
      exists m ls s, dget Nat.eq_dec (f_awc f) u = Some m /\ counts lf m ls /\ NoDup ls /\ (forall t, In t ls <-> under u t) /\
        dget Nat.eq_dec (f_len f) u = Some (n - s) /\ under u s.
    Definition same (u : nat) (f f' : found) : Prop :=
      dget Nat.eq_dec (f_awc f') u = dget Nat.eq_dec (f_awc f) u /\ dget Nat.eq_dec (f_len f') u = dget Nat.eq_dec (f_len f) u.
    Lemma same_good u f f' : same u f f' -> good u f -> good u f'.
    Proof. intros (E1 & E2) (m & ls & s & H). exists m, ls, s. now rewrite E1, E2. Qed.
    Lemma good_same u f f' : same u f f' -> good u f' -> good u f.
    Proof. intros (E1 & E2) (m & ls & s & H). exists m, ls, s. now rewrite <- E1, <- E2. Qed.
    Lemma same_trans u f f' f'' : same u f f' -> same u f' f'' -> same u f f''.
    Proof. unfold same. intros (? & ?) (? & ?). split; congruence. Qed.

    Variable ty : repeat_type.
    (** The word of the node is to be reported. *)
    Definition wanted (u : nat) : Prop := u <> 0 /\ reported (under u) lf (fun s => get (s + length (path u))) ty.
    Definition hit (u : nat) (r : nat * nat) : Prop := wanted u /\ under u (fst r) /\ snd r = fst r + length (path u).
    Definition more (U : nat -> Prop) (f f' : found) : Prop :=
      (forall r, In r (f_repeats f') -> In r (f_repeats f) \/ exists u, U u /\ hit u r) /\
      (forall r, In r (f_repeats f) -> In r (f_repeats f')) /\
      (forall u, U u -> wanted u -> exists r, hit u r /\ In r (f_repeats f')).
    Lemma more_trans (U1 U2 U : nat -> Prop) f f' f'' : more U1 f f' -> more U2 f' f'' -> (forall u, U u <-> U1 u \/ U2 u) -> more U f f''.
    Proof.
      intros (A1 & A2 & A3) (B1 & B2 & B3) E. repeat apply conj.
      - intros r Hr. destruct (B1 r Hr) as [Hr1|(u & U' & Hu)]; [ | right; exists u; split; [ apply E; now right | easy ] ].
        destruct (A1 r Hr1) as [Hr2|(u & U' & Hu)]; [ now left | right; exists u; split; [ apply E; now left | easy ] ].
      - auto.
      - intros u Hu Hw. apply E in Hu. destruct Hu as [Hu|Hu]; [ | now apply B3 ]. destruct (A3 u Hu Hw) as (r & R1 & R2). eauto.
    Qed.
    Lemma more_none (U : nat -> Prop) f f' : f_repeats f' = f_repeats f -> (forall u, U u -> ~ wanted u) -> more U f f'.
    Proof. intros E H. repeat apply conj; rewrite ?E; auto. intros u Hu Hw. now elim (H u Hu). Qed.

    (** The loops over pairs. *)
    Definition pair_hit (children : list nat) (len : nat) (f : found) (r : nat * nat) : Prop :=
      exists c1 c2 m1 m2 l1, In c1 children /\ In c2 children /\ c1 <> c2 /\ dget Nat.eq_dec (f_awc f) c1 = Some m1 /\ dget Nat.eq_dec (f_awc f) c2 = Some m2 /\
        dget Nat.eq_dec (f_len f) c1 = Some l1 /\ same_keys m1 m2 = false /\ r = (n - l1, n - l1 + len).
    Lemma insert_repeat_In l r x : In x (insert_repeat l r) <-> In x l \/ x = r.
    Proof.
      unfold insert_repeat. destruct (in_dec pair_eq_dec r l) as [H|H].
      - split; [ auto | ]. intros [?| -> ]; easy.
      - rewrite in_app_iff. cbn. intuition auto.
    Qed.
    Lemma inner_pairs len c1 m1 l1 : forall l f, dget Nat.eq_dec (f_awc f) c1 = Some m1 -> dget Nat.eq_dec (f_len f) c1 = Some l1 ->
      (forall c, In c l -> exists m, dget Nat.eq_dec (f_awc f) c = Some m) ->
      exists f', loopM (fun f second =>
          if c1 =? second then Ok f
          else bind (dindex Nat.eq_dec (f_awc f) c1) (fun m1 =>
               bind (dindex Nat.eq_dec (f_awc f) second) (fun m2 =>
               if same_keys m1 m2 then Ok f
               else bind (dindex Nat.eq_dec (f_len f) c1) (fun len0 =>
                    Ok (mkFound (f_awc f) (f_len f) (insert_repeat (f_repeats f) (n - len0, n - len0 + len))))))) l f = Ok f' /\
        f_awc f' = f_awc f /\ f_len f' = f_len f /\
        forall r, In r (f_repeats f') <-> In r (f_repeats f) \/ exists c2 m2, In c2 l /\ c1 <> c2 /\ dget Nat.eq_dec (f_awc f) c2 = Some m2 /\ same_keys m1 m2 = false /\ r = (n - l1, n - l1 + len).
    Proof.
      induction l as [|c l IH]; intros f H1 H2 H3.
      - exists f. repeat split; auto. intros [H|(? & ? & [] & _)]. easy.
      - rewrite loopM_cons. destruct (c1 =? c) eqn:E.
        + apply Nat.eqb_eq in E. subst c. cbn [bind]. destruct (IH f H1 H2) as (f' & I1 & I2 & I3 & I4); [ intros; apply H3; now right | ].
          exists f'. conj; auto. intros r. rewrite I4. split; (intros [H|(c2 & m2 & A & B & C)]; [ auto | right; exists c2, m2 ]).
          * split; [ now right | auto ].
          * destruct A as [<-|A]; [ easy | auto ].
        + apply Nat.eqb_neq in E. destruct (H3 c (or_introl eq_refl)) as (m & Hm).
          assert (D1 : dindex Nat.eq_dec (f_awc f) c1 = Ok m1) by (unfold dindex; now rewrite H1).
          assert (D2 : dindex Nat.eq_dec (f_awc f) c = Ok m) by (unfold dindex; now rewrite Hm).
          assert (D3 : dindex Nat.eq_dec (f_len f) c1 = Ok l1) by (unfold dindex; now rewrite H2).
          rewrite D1. cbn [bind]. rewrite D2. cbn [bind]. destruct (same_keys m1 m) eqn:Es.
          * cbn [bind]. destruct (IH f H1 H2) as (f' & I1 & I2 & I3 & I4); [ intros; apply H3; now right | ].
            exists f'. conj; auto. intros r. rewrite I4. split; (intros [H|(c2 & m2 & A & B & C & D)]; [ auto | right; exists c2, m2 ]).
            -- split; [ now right | auto ].
            -- destruct A as [<-|A]; [ | auto ]. rewrite Hm in C. injection C as <-. destruct D as (D & _). congruence.
          * rewrite D3. cbn [bind].
            destruct (IH (mkFound (f_awc f) (f_len f) (insert_repeat (f_repeats f) (n - l1, n - l1 + len))) H1 H2) as (f' & I1 & I2 & I3 & I4);
              [ intros; apply H3; now right | ]. cbn [f_awc f_len f_repeats] in *.
            exists f'. conj; auto. intros r. rewrite I4, insert_repeat_In. split.
            -- intros [[H|H]|(c2 & m2 & A & B & C & D)]; [ auto | right; exists c, m; conj; auto; now left | right; exists c2, m2; split; [ now right | auto ] ].
            -- intros [H|(c2 & m2 & A & B & C & D)]; [ auto | ]. destruct A as [<-|A]; [ left; right; apply D | right; exists c2, m2; auto ].
    Qed.
    Lemma add_pairs_ok children len f : (forall c, In c children -> good c f) ->
      exists f', add_pairs sl children len f = Ok f' /\ f_awc f' = f_awc f /\ f_len f' = f_len f /\
        forall r, In r (f_repeats f') <-> In r (f_repeats f) \/ pair_hit children len f r.
    Proof.
      intros H. unfold add_pairs.
      assert (G : forall l f0, (forall c, In c l -> In c children) -> f_awc f0 = f_awc f -> f_len f0 = f_len f ->
        exists f', loopM (fun f first =>
        loopM (fun f second =>
          if first =? second then Ok f
          else bind (dindex Nat.eq_dec (f_awc f) first) (fun m1 =>
               bind (dindex Nat.eq_dec (f_awc f) second) (fun m2 =>
               if same_keys m1 m2 then Ok f
               else bind (dindex Nat.eq_dec (f_len f) first) (fun len0 =>
                    Ok (mkFound (f_awc f) (f_len f) (insert_repeat (f_repeats f) (n - len0, n - len0 + len)))))))
          children f) l f0 = Ok f' /\ f_awc f' = f_awc f /\ f_len f' = f_len f /\
        forall r, In r (f_repeats f') <-> In r (f_repeats f0) \/ exists c1 c2 m1 m2 l1, In c1 l /\ In c2 children /\ c1 <> c2 /\
          dget Nat.eq_dec (f_awc f) c1 = Some m1 /\ dget Nat.eq_dec (f_awc f) c2 = Some m2 /\
          dget Nat.eq_dec (f_len f) c1 = Some l1 /\ same_keys m1 m2 = false /\ r = (n - l1, n - l1 + len)).
      { induction l as [|c l IH]; intros f0 Hl E1 E2.
        - exists f0. conj; auto. intros r. split; [ auto | ]. intros [?|(? & ? & ? & ? & ? & [] & _)]. easy.
        - rewrite loopM_cons. destruct (H c (Hl c (or_introl eq_refl))) as (m & ls & s & G1 & _ & _ & _ & G2 & _).
          destruct (inner_pairs len c m (n - s) children f0) as (f1 & I1 & I2 & I3 & I4); [ congruence | congruence | | ].
          { intros c' Hc'. destruct (H c' Hc') as (m' & _ & _ & G' & _). exists m'. congruence. }
          rewrite I1. cbn [bind]. destruct (IH f1) as (f' & J1 & J2 & J3 & J4); [ intros; apply Hl; now right | congruence | congruence | ].
          exists f'. conj; auto. intros r. rewrite J4, I4. split.
          + intros [[Hr|(c2 & m2 & A1 & A2 & A3 & A4 & A5)]|(c1 & c2 & m1 & m2 & l1 & A1 & A2)]; [ auto | right | right ].
            * exists c, c2, m, m2, (n - s). rewrite E1 in A3. conj; auto. now left.
            * exists c1, c2, m1, m2, l1. conj; try apply A2. now right.
          + intros [Hr|(c1 & c2 & m1 & m2 & l1 & [<-|A1] & A2 & A3 & A4 & A5 & A6 & A7 & A8)]; [ auto | left; right | right ].
            * exists c2, m2. rewrite G1 in A4. injection A4 as <-. rewrite G2 in A6. injection A6 as <-. rewrite E1. auto.
            * exists c1, c2, m1, m2, l1. auto 10. }
      destruct (G children f ltac:(auto) eq_refl eq_refl) as (f' & G1 & G2 & G3 & G4). exists f'. auto.
    Qed.

    Section Node.
      Variables (v : nat) (nd : snode).
      Hypothesis Hv : nth_error nodes v = Some nd.
      Hypothesis Hin : sn_children nd <> [].
      Notation rf := (fun s => get (s + length (path v))).

      Lemma entry_under x c s : In (x, c) (sn_children nd) -> under c s <-> under v s /\ rf s = x.
      Proof.
        intros H. apply (child_In _ _ _ _ W v nd x c Hv) in H. split.
        - intros U. destruct (child_after _ _ _ _ W K v nd x c s Hv H U) as (E & _). split; [ | easy ].
          apply (inner_under _ _ _ _ W K v nd s Hv Hin). exists c. now rewrite E.
        - intros (U & E). apply (inner_under _ _ _ _ W K v nd s Hv Hin) in U. destruct U as (c' & C1 & C2). cbn beta in E. rewrite E in C1. congruence.
      Qed.
      Lemma entry_of s : under v s -> exists c, In (rf s, c) (sn_children nd) /\ under c s.
      Proof. intros U. apply (inner_under _ _ _ _ W K v nd s Hv Hin) in U. destruct U as (c & C1 & C2). exists c. split; [ now apply (dget_In oeq_dec) | easy ]. Qed.
      Lemma entry_node x c : In (x, c) (sn_children nd) -> exists cn, nth_error nodes c = Some cn /\ c <> 0.
      Proof. intros H. apply (child_In _ _ _ _ W v nd x c Hv) in H. destruct (w_child _ _ _ _ _ _ W v nd x c Hv H) as (cn & C1 & C2 & _). eauto. Qed.
      Lemma entry_leaf x c cn : In (x, c) (sn_children nd) -> nth_error nodes c = Some cn -> is_leaf cn = true <->
        exists s, under c s /\ forall t, under v t -> t <> s -> rf t <> rf s.
      Proof.
        intros H Hc. destruct (entry_node x c H) as (cn' & C1 & C2). rewrite is_leaf_spec, (leaf_one c cn Hc C2). split; intros (s & S1 & S2); exists s; (split; [ easy | ]).
        - intros t Ht Hts E. apply Hts, S2. apply (entry_under x c t H). split; [ easy | ]. apply (entry_under x c s H) in S1. destruct S1 as (_ & <-). exact E.
        - intros t Ht. destruct (Nat.eq_dec t s) as [|Ne]; [ easy | exfalso ]. apply (entry_under x c s H) in S1. apply (entry_under x c t H) in Ht.
          apply (S2 t (proj1 Ht) Ne). destruct S1 as (_ & ->). apply (proj2 Ht).
      Qed.

      Variable f : found.
      Hypothesis Gc : forall x c, In (x, c) (sn_children nd) -> good c f.
      Hypothesis Gv : good v f.

      Lemma pair_hit_diverse children : (forall c, In c children <-> exists x, In (x, c) (sn_children nd)) ->
        (diverse (under v) lf rf <-> exists r, pair_hit children (length (path v)) f r) /\
        (forall r, pair_hit children (length (path v)) f r -> under v (fst r) /\ snd r = fst r + length (path v)).
      Proof.
        intros Hch. conj.
        - split.
          + intros (s & t & Us & Ut & Hne & Hd). destruct (entry_of s Us) as (c1 & A1 & A2). destruct (entry_of t Ut) as (c2 & B1 & B2).
            destruct (Gc _ _ A1) as (m1 & ls1 & s1 & P1 & P2 & P3 & P4 & P5 & P6). destruct (Gc _ _ B1) as (m2 & ls2 & s2 & Q1 & Q2 & Q3 & Q4 & Q5 & Q6).
            eexists. exists c1, c2, m1, m2, (n - s1). conj; auto; try (apply Hch; eauto).
            * intros ->. apply Hne. apply (child_In _ _ _ _ W v nd _ _ Hv) in A1, B1.
              destruct (child_after _ _ _ _ W K v nd _ _ s Hv B1 A2) as (<- & _). reflexivity.
            * apply (same_keys_false lf m1 ls1 m2 ls2 P2 Q2). left. exists s. split; [ now apply P4 | ].
              destruct Hd as [Hd|Hd]; [ now left | right ]. intros u Hu. apply Q4 in Hu. apply (entry_under _ _ u B1) in Hu. now apply Hd.
          + intros (r & c1 & c2 & m1 & m2 & l1 & A1 & A2 & A3 & A4 & A5 & A6 & A7 & A8). apply Hch in A1, A2. destruct A1 as (x1 & A1). destruct A2 as (x2 & A2).
            assert (Hx : x1 <> x2).
            { intros ->. apply A3. apply (child_In _ _ _ _ W v nd _ _ Hv) in A1, A2. congruence. }
            destruct (Gc _ _ A1) as (m1' & ls1 & s1 & P1 & P2 & P3 & P4 & P5 & P6). rewrite A4 in P1. injection P1 as <-.
            destruct (Gc _ _ A2) as (m2' & ls2 & s2 & Q1 & Q2 & Q3 & Q4 & Q5 & Q6). rewrite A5 in Q1. injection Q1 as <-.
            apply (entry_under _ _ _ A1) in P6. apply (entry_under _ _ _ A2) in Q6.
            apply (same_keys_false lf m1 ls1 m2 ls2 P2 Q2) in A7. destruct A7 as [(s & S1 & S2)|(s & S1 & S2)].
            * apply P4 in S1. apply (entry_under _ _ _ A1) in S1. exists s, s2. conj; try tauto.
              -- rewrite (proj2 S1), (proj2 Q6). auto.
              -- destruct S2 as [S2|S2]; [ now left | right ]. intros u Hu Eu. apply S2. apply Q4. apply (entry_under _ _ _ A2). split; [ easy | ]. rewrite Eu. apply Q6.
            * apply Q4 in S1. apply (entry_under _ _ _ A2) in S1. exists s, s1. conj; try tauto.
              -- rewrite (proj2 S1), (proj2 P6). auto.
              -- destruct S2 as [S2|S2]; [ now left | right ]. intros u Hu Eu. apply S2. apply P4. apply (entry_under _ _ _ A1). split; [ easy | ]. rewrite Eu. apply P6.
        - intros r (c1 & c2 & m1 & m2 & l1 & A1 & A2 & A3 & A4 & A5 & A6 & A7 & A8). apply Hch in A1. destruct A1 as (x1 & A1).
          destruct (Gc _ _ A1) as (m1' & ls1 & s1 & P1 & P2 & P3 & P4 & P5 & P6). rewrite A6 in P5. injection P5 as ->.
          pose proof (under_bound _ _ P6). subst r. cbn [fst snd]. replace (n - (n - s1)) with s1 by lia. split; [ | easy ]. now apply (entry_under _ _ _ A1) in P6.
      Qed.

      (** The number of times the element before the only suffix of a leaf is there. *)
      Lemma leaf_count x c cn : In (x, c) (sn_children nd) -> nth_error nodes c = Some cn -> is_leaf cn = true ->
        exists s, under c s /\ (forall t, under c t -> t = s) /\ dindex Nat.eq_dec (f_len f) c = Ok (n - s) /\ element_before sl (n - s) = lf s /\
          (exists awc count, dindex Nat.eq_dec (f_awc f) v = Ok awc /\ dindex oeq_dec awc (lf s) = Ok count /\
             (count = 1 <-> forall t, under v t -> t <> s -> lf t <> lf s)).
      Proof.
        intros H Hc El. destruct (entry_node x c H) as (cn' & C1 & C2). apply is_leaf_spec in El. apply (leaf_one c cn Hc C2) in El. destruct El as (s & S1 & S2).
        exists s. destruct (Gc _ _ H) as (m1 & ls1 & s1 & P1 & P2 & P3 & P4 & P5 & P6). apply S2 in P6. subst s1. conj; auto.
        - unfold dindex. now rewrite P5.
        - apply element_before_lf. pose proof (under_bound _ _ S1). lia.
        - destruct Gv as (m & ls & s0 & Q1 & Q2 & Q3 & Q4 & Q5 & Q6). exists m, (count_occ oeq_dec (map lf ls) (lf s)). conj.
          + unfold dindex. now rewrite Q1.
          + assert (I : In s ls) by (apply Q4; now apply (entry_under _ _ _ H)).
            unfold dindex. rewrite (proj2 Q2). unfold pos. apply (in_map lf) in I. apply (count_occ_In oeq_dec) in I.
            destruct (count_occ oeq_dec (map lf ls) (lf s)); [ lia | easy ].
          + assert (I : In s ls) by (apply Q4; now apply (entry_under _ _ _ H)). rewrite (count_one lf ls s Q3 I).
            split; intros Z t Ht; apply Z; now apply Q4.
      Qed.

      Lemma super_check_ok : forall l, (forall e, In e l -> In e (sn_children nd)) ->
        exists b, super_check sl nodes f v l = Ok b /\ (b = true <->
          forall x c s, In (x, c) l -> under c s -> (forall t, under v t -> t <> s -> rf t <> rf s) /\ (lf s = None \/ forall t, under v t -> t <> s -> lf t <> lf s)).
      Proof.
        induction l as [|(x, c) l IH]; intros Hl; [ exists true; split; [ easy | ]; split; [ intros _ ? ? ? [] | easy ] | ].
        pose proof (Hl _ (or_introl eq_refl)) as He. destruct (entry_node x c He) as (cn & C1 & C2).
        assert (NA : node_at nodes c = Ok cn) by (unfold node_at; now rewrite C1). cbn [super_check]. rewrite NA. cbn [bind].
        destruct (IH ltac:(intros; apply Hl; now right)) as (b & B1 & B2).
        destruct (is_leaf cn) eqn:El; cbn [negb].
        - destruct (leaf_count x c cn He C1 El) as (s & S1 & S2 & S3 & S4 & awc & count & S5 & S6 & S7). rewrite S3. cbn [bind]. rewrite S4.
          apply (entry_leaf x c cn He C1) in El. destruct El as (s' & L1 & L2). apply S2 in L1. subst s'.
          destruct (lf s) as [y|] eqn:Ey.
          + rewrite S5. cbn [bind]. rewrite S6. cbn [bind]. destruct (count =? 1) eqn:E1; cbn [negb].
            * apply Nat.eqb_eq in E1. exists b. split; [ easy | ]. rewrite B2. split.
              -- intros H x' c' s' [E|I] U; [ | eapply H; eauto ]. injection E as <- <-. apply S2 in U. subst s'. split; [ easy | right ]. rewrite Ey. now apply S7.
              -- intros H x' c' s' I U. apply (H x' c' s' (or_intror I) U).
            * exists false. split; [ easy | ]. split; [ easy | ]. intros H. apply Nat.eqb_neq in E1. elim E1. apply S7. rewrite <- Ey.
              destruct (H x c s (or_introl eq_refl) S1) as (_ & [Z|Z]); [ congruence | easy ].
          + exists b. split; [ easy | ]. rewrite B2. split.
            * intros H x' c' s' [E|I] U; [ | eapply H; eauto ]. injection E as <- <-. apply S2 in U. subst s'. split; [ easy | now left ].
            * intros H x' c' s' I U. apply (H x' c' s' (or_intror I) U).
        - exists false. split; [ easy | ]. split; [ easy | ]. intros H. apply not_true_iff_false in El. elim El. apply (entry_leaf x c cn He C1).
          destruct (under_ex c cn C1) as (s & S). exists s. split; [ easy | ]. apply (H x c s (or_introl eq_refl) S).
      Qed.
      Lemma near_check_ok : forall l w, (forall e, In e l -> In e (sn_children nd)) ->
        exists b, near_check sl nodes f v w l = Ok b /\ (b = true <-> w = true \/
          exists x c s, In (x, c) l /\ under c s /\ lf s <> None /\ alone (under v) lf rf s).
      Proof.
        induction l as [|(x, c) l IH]; intros w Hl; [ exists w; split; [ easy | ]; split; [ auto | ]; intros [?|(? & ? & ? & [] & _)]; easy | ].
        pose proof (Hl _ (or_introl eq_refl)) as He. destruct (entry_node x c He) as (cn & C1 & C2).
        assert (NA : node_at nodes c = Ok cn) by (unfold node_at; now rewrite C1). cbn [near_check]. rewrite NA. cbn [bind].
        assert (IH' := fun w => IH w ltac:(intros; apply Hl; now right)). clear IH.
        assert (Skip : forall w', (w' = true <-> w = true \/ exists s, under c s /\ lf s <> None /\ alone (under v) lf rf s) ->
          exists b, near_check sl nodes f v w' l = Ok b /\ (b = true <-> w = true \/
          exists x' c' s, In (x', c') ((x, c) :: l) /\ under c' s /\ lf s <> None /\ alone (under v) lf rf s)).
        { intros w' Hw. destruct (IH' w') as (b & B1 & B2). exists b. split; [ easy | ]. rewrite B2, Hw. split.
          - intros [[H|(s & H)]|(x' & c' & s & I & H)]; [ auto | right; exists x, c, s; split; [ now left | easy ] | right; exists x', c', s; split; [ now right | easy ] ].
          - intros [H|(x' & c' & s & [E|I] & H)]; [ auto | | right; exists x', c', s; auto ]. injection E as <- <-. left. right. now exists s. }
        destruct (is_leaf cn) eqn:El; cbn [negb].
        - destruct (leaf_count x c cn He C1 El) as (s & S1 & S2 & S3 & S4 & awc & count & S5 & S6 & S7). rewrite S3. cbn [bind]. rewrite S4.
          apply (entry_leaf x c cn He C1) in El. destruct El as (s' & L1 & L2). apply S2 in L1. subst s'.
          destruct (lf s) as [y|] eqn:Ey.
          + rewrite S5. cbn [bind]. rewrite S6. cbn [bind]. apply Skip. destruct (count =? 1) eqn:E1.
            * apply Nat.eqb_eq in E1. split; [ intros _; right | easy ]. exists s. conj; auto; [ congruence | ]. intros t Ht Hts. split; [ now apply L2 | ]. rewrite Ey. now apply S7.
            * apply Nat.eqb_neq in E1. split; [ auto | ]. intros [H|(s' & A1 & A2 & A3)]; [ easy | ]. apply S2 in A1. subst s'. elim E1. apply S7. intros t Ht Hts. rewrite <- Ey. now apply A3.
          + apply Skip. split; [ auto | ]. intros [H|(s' & A1 & A2 & A3)]; [ easy | ]. apply S2 in A1. subst s'. congruence.
        - apply Skip. split; [ auto | ]. intros [H|(s' & A1 & A2 & A3)]; [ easy | ]. apply not_true_iff_false in El. elim El. apply (entry_leaf x c cn He C1).
          exists s'. split; [ easy | ]. intros t Ht Hts. now apply A3.
      Qed.

      Lemma add_repeats_ok : v <> 0 -> exists f', add_repeats sl ord ty nodes v (map snd (ord (4 * v + 1) _ (sn_children nd))) (length (path v)) f = Ok f' /\
        f_awc f' = f_awc f /\ f_len f' = f_len f /\ more (fun u => u = v) f f'.
      Proof.
        intros Hv0. unfold add_repeats. assert (NA : node_at nodes v = Ok nd) by (unfold node_at; now rewrite Hv). rewrite NA. cbn [bind].
        set (children := map snd (ord (4 * v + 1) _ (sn_children nd))).
        assert (Hch : forall c, In c children <-> exists x, In (x, c) (sn_children nd)).
        { intros c. unfold children. rewrite in_map_iff. split.
          - intros ((x, c') & E & I). cbn in E. subst c'. exists x. now apply (Permutation_in _ (O _ _ _)) in I.
          - intros (x & I). exists (x, c). split; [ easy | ]. now apply (Permutation_in _ (Permutation_sym (O _ _ _))). }
        destruct (pair_hit_diverse children Hch) as (PD & PU).
        destruct (add_pairs_ok children (length (path v)) f) as (f' & A1 & A2 & A3 & A4).
        { intros c Hc. apply Hch in Hc. destruct Hc as (x & Hc). eapply Gc; eauto. }
        assert (Fin : forall go_on : bool, (go_on = true -> diverse (under v) lf rf -> reported (under v) lf rf ty) ->
          (reported (under v) lf rf ty -> go_on = true /\ diverse (under v) lf rf) ->
          exists f', (if go_on then add_pairs sl children (length (path v)) f else Ok f) = Ok f' /\ f_awc f' = f_awc f /\ f_len f' = f_len f /\ more (fun u => u = v) f f').
        { intros go_on G1 G2. destruct go_on.
          - exists f'. conj; auto. repeat apply conj.
            + intros r Hr. apply A4 in Hr. destruct Hr as [Hr|Hr]; [ now left | right ]. exists v. split; [ easy | ].
              split; [ split; [ easy | apply G1; [ easy | ]; apply PD; eauto ] | ]. now apply PU.
            + intros r Hr. apply A4. now left.
            + intros u -> (_ & Hw). destruct (G2 Hw) as (_ & Hd). apply PD in Hd. destruct Hd as (r & Hr). exists r. split; [ | apply A4; now right ].
              split; [ easy | now apply PU ].
          - exists f. conj; auto. apply more_none; [ easy | ]. intros u -> (_ & Hw). destruct (G2 Hw). easy. }
        assert (PI : forall e, In e (ord (4 * v + 2) _ (sn_children nd)) -> In e (sn_children nd)) by (intros e; apply (Permutation_in _ (O _ _ _))).
        assert (PI' : forall e, In e (sn_children nd) -> In e (ord (4 * v + 2) _ (sn_children nd))) by (intros e; apply (Permutation_in _ (Permutation_sym (O _ _ _)))).
        destruct ty; cbn [bind].
        - apply (Fin true); cbn; auto.
        - destruct (super_check_ok _ PI) as (b & B1 & B2). rewrite B1. cbn [bind]. apply Fin; cbn [reported].
          + intros -> (s & t & D1 & D2 & D3 & D4). split; [ exists s, t; conj; auto; intros ->; now apply D3 | ].
            intros a a' Ha Ha' Hne. destruct (entry_of a Ha) as (c & I1 & I2). destruct (proj1 B2 eq_refl _ _ _ (PI' _ I1) I2) as (R1 & R2).
            split; [ apply not_eq_sym; apply R1; auto | ]. destruct R2 as [R2|R2]; [ now right | left ]. apply not_eq_sym. apply R2; auto.
          + intros ((s & t & Hs & Ht & Hst) & HF). split.
            * apply B2. intros x c a I U. apply PI in I. apply (entry_under _ _ _ I) in U. destruct U as (U & _). split.
              -- intros a' Ha' Hne. apply (HF a' a Ha' U Hne).
              -- destruct (lf a) as [y|] eqn:E; [ right | now left ]. intros a' Ha' Hne. destruct (HF a a' U Ha' (not_eq_sym Hne)) as (_ & [Z|Z]); congruence.
            * exists s, t. conj; auto; [ apply (HF t s Ht Hs); auto | ]. destruct (HF s t Hs Ht Hst) as (R & [Z|Z]); [ right | now left ].
              intros u Hu Eu. destruct (Nat.eq_dec u t) as [ -> |Hut]; [ auto | ]. destruct (HF u t Hu Ht Hut) as (R' & _). easy.
        - destruct (near_check_ok _ false PI) as (b & B1 & B2). rewrite B1. cbn [bind]. apply Fin; cbn [reported].
          + intros -> D. split; [ easy | ]. destruct (proj1 B2 eq_refl) as [Z|(x & c & s & I & U & R)]; [ easy | ]. exists s. split; [ | easy ].
            apply PI in I. now apply (entry_under _ _ _ I) in U.
          + intros (D & s & S1 & S2 & S3). split; [ | easy ]. apply B2. right. destruct (entry_of s S1) as (c & I1 & I2). exists (rf s), c, s. auto.
      Qed.
    End Node.

    Lemma leaf_not_wanted v nd : nth_error nodes v = Some nd -> sn_children nd = [] -> ~ wanted v.
    Proof.
      intros Hv El (Hv0 & Hr). destruct (leaf_under _ _ _ _ W K v nd Hv Hv0 El) as (_ & _ & L).
      assert (E : forall s t, under v s -> under v t -> s = t) by (intros s t Hs Ht; apply L in Hs, Ht; congruence).
      assert (D : ~ diverse (under v) lf (fun s => get (s + length (path v)))).
      { intros (s & t & D1 & D2 & D3 & _). now rewrite (E s t D1 D2) in D3. }
      destruct ty; cbn in Hr; [ easy | | easy ]. destruct Hr as ((s & t & H1 & H2 & H3) & _). now elim H3; apply E.
    Qed.

    Lemma dfs_repeats_ok : forall fuel v nd suf f, nth_error nodes v = Some nd -> suf + elen nd = length (path v) -> n - length (path v) < fuel ->
      exists f', dfs_repeats sl ord fuel ty nodes v suf f = Ok f' /\ (forall u, anc v u -> good u f') /\ (forall u, ~ anc v u -> same u f f') /\ more (anc v) f f'.
    Proof.
      induction fuel as [|fuel IH]; [ lia | ]. intros v nd suf f Hv Hsuf Hfuel.
      assert (NA : node_at nodes v = Ok nd) by (unfold node_at; now rewrite Hv). cbn [dfs_repeats]. rewrite NA. cbn [bind]. rewrite Hsuf.
      destruct (is_leaf nd) eqn:El.
      - apply is_leaf_spec in El. assert (Hv0 : v <> 0) by (intros ->; now apply (root_inner _ _ _ _ W K nd)).
        destruct (leaf_under _ _ _ _ W K v nd Hv Hv0 El) as (L1 & L2 & L3).
        assert (Only : forall u, anc v u -> u = v).
        { intros u A. destruct (anc_child _ _ _ A) as [ -> |(c & cn & C1 & C2 & C3)]; [ easy | ].
          destruct (parent_path _ _ _ _ _ _ W _ _ _ C1 C2) as (_ & (pd & D1 & D2) & _). replace pd with nd in * by congruence. now rewrite El in D2. }
        eexists. split; [ reflexivity | ]. conj.
        + intros u A. rewrite (Only u A). exists [(element_before sl (length (path v)), 1)], [n - length (path v)], (n - length (path v)).
          cbn [f_awc f_len]. rewrite !dget_dset_same. assert (E : n - (n - length (path v)) = length (path v)) by lia. rewrite E. conj; auto.
          * split; [ repeat constructor; easy | ]. intros x. rewrite <- E at 1. rewrite element_before_lf by lia. cbn [dget map count_occ].
            generalize (lf (n - length (path v))). intros y. destruct (oeq_dec x y), (oeq_dec y x); solve [ reflexivity | congruence ].
          * repeat constructor; easy.
          * intros t. rewrite L3. cbn. intuition auto.
          * now apply L3.
        + intros u A. assert (v <> u) by (intros ->; apply A; constructor). unfold same. cbn [f_awc f_len]. now rewrite !dget_dset_other.
        + apply more_none; [ easy | ]. intros u A. rewrite (Only u A). now apply (leaf_not_wanted v nd).
      - assert (El' : sn_children nd <> []) by (intros Z; apply is_leaf_spec in Z; congruence).
        set (step := fun (st : dict (option N) nat * found) (kc : option N * nat) =>
                    bind (dfs_repeats sl ord fuel ty nodes (snd kc) (length (path v)) (snd st)) (fun f =>
                    bind (dindex Nat.eq_dec (f_awc f) (snd kc)) (fun m => Ok (fold_left increase_by (ord (4 * v + 3) _ m) (fst st), f)))).
        assert (L : forall l done m0 ls0 f0, (forall e, In e (done ++ l) -> In e (sn_children nd)) -> NoDup (map fst (done ++ l)) ->
          counts lf m0 ls0 -> NoDup ls0 -> (forall s, In s ls0 <-> exists e, In e done /\ under (snd e) s) ->
          (forall e u, In e done -> anc (snd e) u -> good u f0) -> (forall u, (forall e, In e done -> ~ anc (snd e) u) -> same u f f0) ->
          more (fun u => exists e, In e done /\ anc (snd e) u) f f0 ->
          exists m1 ls1 f1, loopM step l (m0, f0) = Ok (m1, f1) /\
            counts lf m1 ls1 /\ NoDup ls1 /\ (forall s, In s ls1 <-> exists e, In e (done ++ l) /\ under (snd e) s) /\
            (forall e u, In e (done ++ l) -> anc (snd e) u -> good u f1) /\ (forall u, (forall e, In e (done ++ l) -> ~ anc (snd e) u) -> same u f f1) /\
            more (fun u => exists e, In e (done ++ l) /\ anc (snd e) u) f f1).
        { induction l as [|(x, c) l IHl]; intros done m0 ls0 f0 HI HN C0 N0 E0 G0 S0 M0.
          - rewrite app_nil_r. exists m0, ls0, f0. conj; auto.
          - assert (He : In (x, c) (sn_children nd)) by (apply HI; apply in_app_iff; right; now left).
            destruct (entry_node v nd Hv x c He) as (cn & C1 & C2). pose proof (child_In _ _ _ _ W v nd x c Hv He) as Hx.
            destruct (w_child _ _ _ _ _ _ W v nd x c Hv Hx) as (cn' & D1 & D2 & D3 & D4). rewrite C1 in D1. injection D1 as <-.
            destruct (elen_node _ _ _ _ _ _ W _ _ _ C1 D3) as (M1 & M2).
            rewrite loopM_cons. unfold step at 1. cbn [fst snd]. pose proof (node_bound _ _ _ _ W K c cn C1).
            destruct (IH c cn (length (path v)) f0 C1 ltac:(lia) ltac:(lia)) as (f1 & F1 & F2 & F3 & F4). rewrite F1. cbn [bind].
            destruct (F2 c ltac:(constructor)) as (m & ls & s & P1 & P2 & P3 & P4 & P5 & P6).
            assert (DI : dindex Nat.eq_dec (f_awc f1) c = Ok m) by (unfold dindex; now rewrite P1). rewrite DI. cbn [bind].
            assert (Dist : forall e, In e done -> In e (sn_children nd) /\ fst e <> x).
            { intros e Hd. split; [ apply HI; apply in_app_iff; now left | ]. rewrite map_app in HN. cbn in HN. apply NoDup_remove in HN. destruct HN as (_ & HN).
              intros E. apply HN. apply in_app_iff. left. rewrite <- E. now apply in_map. }
            destruct (IHl (done ++ [(x, c)]) (fold_left increase_by (ord (4 * v + 3) _ m) m0) (ls0 ++ ls) f1) as (m1 & ls1 & f2 & R).
            + now rewrite <- app_assoc.
            + now rewrite <- app_assoc.
            + eapply counts_app; eauto.
            + assert (ND : forall a, In a ls0 -> ~ In a ls).
              { intros a A1 A2. apply P4 in A2. apply E0 in A1. destruct A1 as ((x', c') & A1 & A3). destruct (Dist _ A1) as (A4 & A5). cbn in *.
                apply (entry_under v nd Hv El' _ _ _ A4) in A3. apply (entry_under v nd Hv El' _ _ _ He) in A2. apply A5. destruct A3 as (_ & <-). apply A2. }
              clear -N0 P3 ND. induction N0 as [|a l A1 A2 IHn]; cbn; [ easy | ]. constructor.
              * rewrite in_app_iff. intros [Z|Z]; [ easy | ]. apply (ND a); [ now left | easy ].
              * apply IHn. intros b B. apply ND. now right.
            + intros a. rewrite in_app_iff, E0, P4. split.
              * intros [(e & A1 & A2)|A]; [ exists e; split; [ apply in_app_iff; now left | easy ] | exists (x, c); split; [ apply in_app_iff; right; now left | easy ] ].
              * intros (e & A1 & A2). apply in_app_iff in A1. destruct A1 as [A1|[<-|[]]]; [ left; now exists e | now right ].
            + intros e u A1 A2. apply in_app_iff in A1. destruct A1 as [A1|[<-|[]]]; [ | now apply F2 ].
              apply (same_good u f0 f1); [ | now apply (G0 e) ]. apply F3. destruct e as (x', c'). destruct (Dist _ A1) as (A4 & A5). cbn [fst snd] in *.
              pose proof (child_In _ _ _ _ W v nd _ _ Hv A4) as Hx'. apply (siblings v nd x' c' x c u Hv Hx' Hx); [ | easy ].
              intros ->. apply A5. destruct (w_child _ _ _ _ _ _ W v nd x' c Hv Hx') as (cn' & B1 & _ & _ & B4). congruence.
            + intros u Hu. apply (same_trans u f f0 f1).
              * apply S0. intros e A. apply Hu. apply in_app_iff. now left.
              * apply F3. apply (Hu (x, c)). apply in_app_iff. right. now left.
            + eapply more_trans; [ exact M0 | exact F4 | ]. intros u. cbn beta. split.
              * intros (e & A1 & A2). apply in_app_iff in A1. destruct A1 as [A1|[<-|[]]]; [ left; now exists e | now right ].
              * intros [(e & A1 & A2)|A]; [ exists e; split; [ apply in_app_iff; now left | easy ] | exists (x, c); split; [ apply in_app_iff; right; now left | easy ] ].
            + rewrite <- !app_assoc in R. cbn [app] in R. exists m1, ls1, f2. exact R. }
        assert (PI : forall e, In e (ord (4 * v) _ (sn_children nd)) <-> In e (sn_children nd)).
        { intros e. split; [ apply (Permutation_in _ (O _ _ _)) | apply (Permutation_in _ (Permutation_sym (O _ _ _))) ]. }
        destruct (L (ord (4 * v) _ (sn_children nd)) [] [] [] f) as (m1 & ls1 & f1 & R1 & R2 & R3 & R4 & R5 & R6 & R7).
        { intros e. cbn [app]. apply PI. }
        { cbn [app]. eapply Permutation_NoDup; [ symmetry; apply Permutation_map, (O _ _ _) | ]. exact (w_keys _ _ _ _ _ _ W v nd Hv). }
        { split; [ constructor | ]. intros x. reflexivity. }
        { constructor. }
        { intros s. split; [ easy | ]. now intros (e & [] & _). }
        { easy. }
        { split; reflexivity. }
        { apply more_none; [ easy | ]. now intros u (e & [] & _). }
        clear L. match goal with |- context [bind ?l ?h] => change (bind l h) with (bind (loopM step (ord (4 * v) _ (sn_children nd)) (@nil (option N * nat) : dict (option N) nat, f)) h) end.
        rewrite R1. cbn [bind app] in *.
        set (children := map snd (ord (4 * v + 1) _ (sn_children nd))).
        assert (Hch : forall c, In c children <-> exists x, In (x, c) (sn_children nd)).
        { intros c. unfold children. rewrite in_map_iff. split.
          - intros ((x, c') & E & I). cbn in E. subst c'. exists x. now apply (Permutation_in _ (O _ _ _)) in I.
          - intros (x & I). exists (x, c). split; [ easy | ]. now apply (Permutation_in _ (Permutation_sym (O _ _ _))). }
        assert (Min : exists c, In c children /\ match children with [] => rpanic | c :: children' => dindex Nat.eq_dec (f_len f1) (fold_left Nat.min children' c) end = dindex Nat.eq_dec (f_len f1) c).
        { assert (Ne : children <> []).
          { destruct (sn_children nd) as [|(x, c) l] eqn:E; [ easy | ]. intros Z. assert (I : In c children) by (apply Hch; exists x; now left). now rewrite Z in I. }
          destruct children as [|c l]; [ easy | ]. exists (fold_left Nat.min l c). split; [ | easy ]. clear. revert c. induction l as [|d l IHl]; intros c; [ now left | ].
          cbn [fold_left]. destruct (IHl (Nat.min c d)) as [E|E]; [ | right; now right ]. rewrite <- E. destruct (Nat.min_dec c d) as [Q|Q]; rewrite Q; [ now left | right; now left ]. }
        destruct Min as (cm & Cm1 & Cm2). rewrite Cm2. clear Cm2. apply Hch in Cm1. destruct Cm1 as (xm & Cm1).
        assert (Gall : forall x c u, In (x, c) (sn_children nd) -> anc c u -> good u f1) by (intros x c u Hc A; apply (R5 (x, c)); [ now apply PI | easy ]).
        destruct (Gall _ _ _ Cm1 (anc_refl _ _)) as (mm & lm & sm & P1 & P2 & P3 & P4 & P5 & P6).
        assert (DI : dindex Nat.eq_dec (f_len f1) cm = Ok (n - sm)) by (unfold dindex; now rewrite P5). rewrite DI. cbn [bind].
        set (f2 := mkFound (dset Nat.eq_dec (f_awc f1) v m1) (dset Nat.eq_dec (f_len f1) v (n - sm)) (f_repeats f1)).
        assert (Sv : forall u, u <> v -> same u f1 f2) by (intros u Hu; unfold same, f2; cbn [f_awc f_len]; now rewrite !dget_dset_other by auto).
        assert (Hcv : forall x c u, In (x, c) (sn_children nd) -> anc c u -> u <> v /\ anc v u).
        { intros x c u Hc A. pose proof (child_In _ _ _ _ W v nd _ _ Hv Hc) as Hx. destruct (w_child _ _ _ _ _ _ W v nd x c Hv Hx) as (cn & C1 & C2 & C3 & C4). split.
          - intros ->. destruct (elen_node _ _ _ _ _ _ W _ _ _ C1 C3) as (M1 & M2). pose proof (prefix_length _ _ (anc_prefix _ _ _ _ _ _ W _ _ A)). lia.
          - eapply anc_trans; [ | exact A ]. eapply anc_up; [ constructor | exact C1 | exact C3 ]. }
        assert (Gv : good v f2).
        { exists m1, ls1, sm. unfold f2. cbn [f_awc f_len]. rewrite !dget_dset_same. conj; auto.
          - intros t. rewrite R4. split.
            + intros ((x, c) & I & U). apply PI in I. now apply (entry_under v nd Hv El' _ _ _ I) in U.
            + intros U. destruct (entry_of v nd Hv El' t U) as (c & I1 & I2). eexists. split; [ apply PI; exact I1 | exact I2 ].
          - now apply (entry_under v nd Hv El' _ _ _ Cm1) in P6. }
        assert (Gc : forall x c, In (x, c) (sn_children nd) -> good c f2).
        { intros x c Hc. apply (same_good c f1 f2); [ apply Sv, (Hcv x c c Hc (anc_refl _ _)) | ]. apply (Gall x c c Hc). constructor. }
        assert (Anc : forall u, anc v u <-> u = v \/ exists e, In e (ord (4 * v) _ (sn_children nd)) /\ anc (snd e) u).
        { intros u. split.
          - intros A. destruct (anc_child _ _ _ A) as [ -> |(c & cn & C1 & C2 & C3)]; [ now left | right ].
            destruct (parent_path _ _ _ _ _ _ W _ _ _ C1 C2) as (_ & (pd & D1 & D2) & _). replace pd with nd in * by congruence.
            eexists (_, c). split; [ apply PI; apply (dget_In oeq_dec); exact D2 | exact C3 ].
          - intros [ -> |((x, c) & I & A)]; [ constructor | ]. apply PI in I. now apply (Hcv x c u I). }
        assert (Done : forall f3, f_awc f3 = f_awc f2 -> f_len f3 = f_len f2 -> more (fun u => u = v) f2 f3 ->
          (forall u, anc v u -> good u f3) /\ (forall u, ~ anc v u -> same u f f3) /\ more (anc v) f f3).
        { intros f3 E1 E2 M3. assert (S3 : forall u, same u f2 f3) by (intros u; unfold same; now rewrite E1, E2). conj.
          - intros u A. apply (same_good u f2 f3 (S3 u)). apply Anc in A. destruct A as [ -> |((x, c) & I & A)]; [ easy | ]. apply PI in I.
            apply (same_good u f1 f2); [ apply Sv, (Hcv x c u I A) | now apply (Gall x c) ].
          - intros u A. apply (same_trans u f f1 f3); [ | apply (same_trans u f1 f2 f3); [ apply Sv | apply S3 ] ].
            + apply R6. intros (x, c) I A2. apply A. apply Anc. right. exists (x, c). auto.
            + intros ->. apply A. constructor.
          - assert (M12 : more (fun _ => False) f1 f2) by (apply more_none; easy).
            eapply more_trans; [ exact R7 | | ]; [ eapply more_trans; [ exact M12 | exact M3 | intros u; cbn beta; instantiate (1 := fun u => u = v); cbn; tauto ] | ].
            intros u. rewrite Anc. cbn beta. tauto. }
        destruct (length (path v) =? 0) eqn:Ez.
        + exists f2. split; [ easy | ]. apply Done; auto. apply more_none; [ easy | ]. intros u -> (Hv0 & _). apply Nat.eqb_eq in Ez.
          destruct (w_node _ _ _ _ _ _ W v nd Hv0 Hv) as (p & pd & E1 & _). destruct (elen_node _ _ _ _ _ _ W _ _ _ Hv E1). lia.
        + apply Nat.eqb_neq in Ez. assert (Hv0 : v <> 0) by (intros ->; apply Ez; now rewrite (w_root_path _ _ _ _ _ _ W)).
          destruct (add_repeats_ok v nd Hv El' f2 Gc Gv Hv0) as (f3 & A1 & A2 & A3 & A4). exists f3. split; [ exact A1 | ]. now apply Done.
    Qed.
  End Fixed.
End Tree.
