(** Proofs about the fuzzy miner: clusters. *)
From Coq Require Import QArith Permutation Lqa Relations.
From Verif Require Import Py PyFacts InfoModel InfoSpec InfoProofs ReplayModel RInfoModel RInfoSpec RInfoProofs AlphaModel HeurModel HeurSpec HeurProofs2 FuzzyModel FuzzySpec FuzzyProofs1 FuzzyProofs2 FuzzyProofs3.
Open Scope nat_scope.

(** ** Dictionaries in place *)
Lemma dget_split {V} (d : dict N V) k v : NoDup (dkeys d) -> dget N.eq_dec d k = Some v ->
  exists l r, d = l ++ (k, v) :: r /\ (forall v', dset N.eq_dec d k v' = l ++ (k, v') :: r) /\ ddel N.eq_dec d k = l ++ r.
Proof.
  induction d as [|[k' v'] d IH]; cbn [dget]; intros Hn H; [discriminate|]. inversion Hn as [|? ? Hk Hn']; subst. cbn [dset ddel]. destruct (N.eq_dec k k') as [<-|Hne].
  - injection H as ->. exists [], d. auto.
  - destruct (IH Hn' H) as (l & r & -> & H1 & H2). exists ((k', v') :: l), r. split; [reflexivity|]. split; [intros v0; rewrite H1; reflexivity|rewrite H2; reflexivity].
Qed.
Lemma dset_new {V} (d : dict N V) k v : ~ In k (dkeys d) -> dset N.eq_dec d k v = d ++ [(k, v)].
Proof.
  induction d as [|[k' v'] d IH]; cbn [dset dkeys map fst In]; intros H; [reflexivity|]. destruct (N.eq_dec k k') as [<-|Hne]; [destruct H; auto|]. rewrite IH; auto.
Qed.
Lemma loopM_cons_ok {A S} (f : S -> A -> result S) x xs s s' : f s x = Ok s' -> loopM f (x :: xs) s = loopM f xs s'.
Proof. intros H. rewrite loopM_cons, H. reflexivity. Qed.

Section Clusters.
  Variable log : flog.
  Variable p : fparams.
  Variable ids : dict pystr N.
  Variable next : N.
  Variable g : fgraph.
  Variable k : pystr -> pystr -> bool.
  Hypothesis B : base log p (fg_nodes g) ids next.
  Hypothesis St : estate log (fg_nodes g) ids k g.
  Hypothesis K3 : forall a b, In a (shown_names log p) -> In b (shown_names log p) -> (k a b = true <-> third_edge log p a b).

  Definition idn (x : N) (c : pystr) : Prop := dget str_eq_dec ids c = Some x.
  Definition blk (s : list N) (b : list pystr) : Prop := Forall2 idn s b.
  Lemma idn_inj x c d : idn x c -> idn x d -> c = d.
  Proof. apply (id_inj _ _ _ _ _ B). Qed.
  Lemma idn_fun x y c : idn x c -> idn y c -> x = y.
  Proof. unfold idn. congruence. Qed.
  Lemma idn_name x c : idn x c -> fg_name g x = Ok c.
  Proof. intros H. apply (fg_name_proof log p (fg_nodes g) ids next B k g c x St H). Qed.
  Lemma idn_edge x y a b : idn x a -> idn y b -> (fedge g x y <> None <-> third_edge log p a b).
  Proof.
    intros Ha Hb. rewrite (es_edges _ _ _ _ _ St a b x y Ha Hb), <- (K3 a b (id_shown _ _ _ _ _ B a x Ha) (id_shown _ _ _ _ _ B b y Hb)).
    destruct (k a b); split; congruence.
  Qed.
  Lemma edge_idn x y : fedge g x y <> None -> exists a b, idn x a /\ idn y b.
  Proof.
    intros H. destruct (es_ends _ _ _ _ _ St x y H) as [Hx Hy]. destruct (name_of _ _ _ _ _ B x Hx) as (a & _ & Ha). destruct (name_of _ _ _ _ _ B y Hy) as (b & _ & Hb). exists a, b. auto.
  Qed.
  Lemma third_shown a b : third_edge log p a b -> In a (shown_names log p) /\ In b (shown_names log p).
  Proof. intros [H _]. apply (second_shown log p a b H). Qed.
  Lemma shown_idn c : In c (shown_names log p) -> exists x, idn x c.
  Proof. apply (id_of _ _ _ _ _ B). Qed.
  Lemma blk_In s b x c : blk s b -> idn x c -> (In x s <-> In c b).
  Proof.
    intros H Hx. induction H as [|y d s b Hy H IH]; [tauto|]. cbn [In]. rewrite IH. apply or_iff_compat_r. split; intros <-.
    - apply (idn_inj y d c Hy Hx).
    - apply (idn_fun y x d Hy Hx).
  Qed.
  Lemma blk_name s b x : blk s b -> In x s -> exists c, idn x c /\ In c b.
  Proof. intros H. induction H as [|y d s b Hy H IH]; [intros []|]. intros [<-|Hx]; [exists d; split; [exact Hy|left; reflexivity]|]. destruct (IH Hx) as (c & H1 & H2). exists c. split; [exact H1|right; exact H2]. Qed.
  Lemma blk_id s b c : blk s b -> In c b -> exists x, idn x c /\ In x s.
  Proof. intros H. induction H as [|y d s b Hy H IH]; [intros []|]. intros [<-|Hx]; [exists y; split; [exact Hy|left; reflexivity]|]. destruct (IH Hx) as (x & H1 & H2). exists x. split; [exact H1|right; exact H2]. Qed.
  Lemma blk_NoDup s b : blk s b -> NoDup b -> NoDup s.
  Proof.
    intros H. induction H as [|y d s b Hy H IH]; intros N; [constructor|]. inversion N; subst. constructor; [|auto]. intros K. apply (blk_In s b y d H Hy) in K. auto.
  Qed.

  Definition blks (sets : list (N * list N)) (blocks : list (list pystr)) : Prop := Forall2 (fun cs b => blk (snd cs) b) sets blocks.
  Record cinv (cl : fclusters) (blocks : list (list pystr)) : Prop := {
    ci_keys : NoDup (dkeys (fc_sets cl));
    ci_next : forall c, In c (dkeys (fc_sets cl)) -> (c < fc_next cl)%N;
    ci_sets : blks (fc_sets cl) blocks;
    ci_of : forall x c, dget N.eq_dec (fc_of cl) x = Some c <-> exists s, In (c, s) (fc_sets cl) /\ In x s;
    ci_once : NoDup (concat blocks);
    ci_some : forall b, In b blocks -> b <> [] }.
  Lemma blks_in sets blocks x c : blks sets blocks -> idn x c -> ((exists i s, In (i, s) sets /\ In x s) <-> In c (concat blocks)).
  Proof.
    intros H Hx. induction H as [|[i s] b sets blocks Hs H IH]; [cbn; split; [intros (? & ? & [] & _)|intros []]|]. cbn [concat snd] in *. rewrite in_app_iff, <- IH, <- (blk_In s b x c Hs Hx). split.
    - intros (i' & s' & [E|Hi] & Hin); [injection E as <- <-; auto|right; eauto].
    - intros [Hin|(i' & s' & Hi & Hin)]; [exists i, s; split; [left; reflexivity|exact Hin]|exists i', s'; split; [right; exact Hi|exact Hin]].
  Qed.
  Lemma of_concat cl blocks x c : cinv cl blocks -> idn x c -> (dmem N.eq_dec (fc_of cl) x = true <-> In c (concat blocks)).
  Proof.
    intros H Hx. rewrite <- (blks_in _ _ x c (ci_sets _ _ H) Hx). unfold dmem. destruct (dget N.eq_dec (fc_of cl) x) as [i|] eqn:E.
    - split; [intros _|reflexivity]. apply (ci_of _ _ H) in E. destruct E as (s & E1 & E2). eauto.
    - split; [discriminate|]. intros (i & s & H1 & H2). assert (K : dget N.eq_dec (fc_of cl) x = Some i) by (apply (ci_of _ _ H); eauto). congruence.
  Qed.
  Lemma blks_split l c s r blocks : blks (l ++ (c, s) :: r) blocks -> exists L b R, blocks = L ++ b :: R /\ blks l L /\ blk s b /\ blks r R.
  Proof.
    intros H. apply Forall2_app_inv_l in H. destruct H as (L & R' & H1 & H2 & ->). inversion H2 as [|? b ? R Hb HR]; subst. exists L, b, R. auto.
  Qed.

  (** ** The first clusters *)
  Lemma strongest_proof x c (l : list N) : (forall y, In y l -> exists d, idn y d) ->
    exists best, strongest g log x c l = Ok best /\
      match best with
      | None => forall y, In y l -> y = x
      | Some (q, m) => exists d, idn m d /\ In m l /\ m <> x /\ q = distance log c d /\ forall y e, In y l -> y <> x -> idn y e -> (distance log c e <= q)%Q
      end.
  Proof.
    intros Hl. unfold strongest.
    assert (G : forall l done best, (forall y, In y l -> exists d, idn y d) ->
      match best with
      | None => forall y, In y done -> y = x
      | Some (q, m) => exists d, idn m d /\ In m done /\ m <> x /\ q = distance log c d /\ forall y e, In y done -> y <> x -> idn y e -> (distance log c e <= q)%Q
      end -> exists best', loopM (fun best c0 =>
        if N.eqb c0 x then Ok best
        else bind (fg_name g c0) (fun n =>
          let corr := proximity_correlation log c n in
          Ok (match best with Some (m, _) => if Qlt_bool m corr then Some (corr, c0) else best | None => Some (corr, c0) end))) l best = Ok best' /\
      match best' with
      | None => forall y, In y (done ++ l) -> y = x
      | Some (q, m) => exists d, idn m d /\ In m (done ++ l) /\ m <> x /\ q = distance log c d /\ forall y e, In y (done ++ l) -> y <> x -> idn y e -> (distance log c e <= q)%Q
      end).
    { clear l Hl. induction l as [|y l IH]; intros done best Hl Hb; [exists best; rewrite app_nil_r; auto|].
      replace (done ++ y :: l) with ((done ++ [y]) ++ l) by (rewrite <- app_assoc; reflexivity).
      assert (W : forall best', match best' with
        | None => forall y', In y' (done ++ [y]) -> y' = x
        | Some (q, m) => exists d, idn m d /\ In m (done ++ [y]) /\ m <> x /\ q = distance log c d /\ forall y' e, In y' (done ++ [y]) -> y' <> x -> idn y' e -> (distance log c e <= q)%Q
        end -> (if N.eqb y x then Ok best
        else bind (fg_name g y) (fun n =>
          let corr := proximity_correlation log c n in
          Ok (match best with Some (m, _) => if Qlt_bool m corr then Some (corr, y) else best | None => Some (corr, y) end))) = Ok best' -> exists best'', loopM (fun best c0 =>
        if N.eqb c0 x then Ok best
        else bind (fg_name g c0) (fun n =>
          let corr := proximity_correlation log c n in
          Ok (match best with Some (m, _) => if Qlt_bool m corr then Some (corr, c0) else best | None => Some (corr, c0) end))) (y :: l) best = Ok best'' /\
        match best'' with
      | None => forall y', In y' ((done ++ [y]) ++ l) -> y' = x
      | Some (q, m) => exists d, idn m d /\ In m ((done ++ [y]) ++ l) /\ m <> x /\ q = distance log c d /\ forall y' e, In y' ((done ++ [y]) ++ l) -> y' <> x -> idn y' e -> (distance log c e <= q)%Q
      end).
      { intros best' Hb' E. destruct (IH (done ++ [y]) best' (fun y' H => Hl y' (or_intror H)) Hb') as (b & E' & Hb''). exists b. split; [|exact Hb'']. rewrite (loopM_cons_ok _ _ _ _ _ E). exact E'. }
      destruct (N.eqb y x) eqn:Ey.
      - apply N.eqb_eq in Ey. subst y. apply (W best); [|reflexivity]. destruct best as [[q m]|].
        + destruct Hb as (d & H1 & H2 & H3 & H4 & H5). exists d. repeat split; auto; [apply in_or_app; auto|]. intros y' e Hy'. apply in_app_or in Hy'. destruct Hy' as [Hy'|[<-|[]]]; [apply H5, Hy'|congruence].
        + intros y' Hy'. apply in_app_or in Hy'. destruct Hy' as [Hy'|[<-|[]]]; auto.
      - apply N.eqb_neq in Ey. destruct (Hl y (or_introl eq_refl)) as (d & Hd). rewrite (idn_name y d Hd) in *. cbn [bind] in W. cbn zeta in W. rewrite proximity_proof in W.
        assert (Hd' : forall e, idn y e -> e = d) by (intros e He; apply (idn_inj y e d He Hd)).
        eapply W; [|reflexivity]. destruct best as [[q m]|].
        + destruct Hb as (d' & H1 & H2 & H3 & H4 & H5). destruct (Qlt_bool q (distance log c d)) eqn:Eq.
          * apply Qlt_bool_iff in Eq. exists d. repeat split; auto; [apply in_or_app; right; left; reflexivity|]. intros y' e Hy' Hne He. apply in_app_or in Hy'. destruct Hy' as [Hy'|[<-|[]]]; [specialize (H5 y' e Hy' Hne He); lra|rewrite (Hd' e He); lra].
          * assert (L : (distance log c d <= q)%Q). { destruct (Qlt_le_dec q (distance log c d)) as [L|L]; [|exact L]. apply Qlt_bool_iff in L. congruence. }
            exists d'. repeat split; auto; [apply in_or_app; auto|]. intros y' e Hy' Hne He. apply in_app_or in Hy'. destruct Hy' as [Hy'|[<-|[]]]; [apply (H5 y' e Hy' Hne He)|rewrite (Hd' e He); exact L].
        + exists d. repeat split; auto; [apply in_or_app; right; left; reflexivity|]. intros y' e Hy' Hne He. apply in_app_or in Hy'. destruct Hy' as [Hy'|[<-|[]]]; [destruct Hne; auto|rewrite (Hd' e He); lra]. }
    destruct (G l [] None Hl) as (best & E & Hb); [intros y []|]. exists best. split; [exact E|exact Hb].
  Qed.

  Variable ord0 : nat -> forall A : Type, list A -> list A.
  Hypothesis O0 : any_order ord0.
  Let info := r_create_from ord0 (names_of log) false None.
  Lemma joined_sub done blocks : joined log p done blocks -> forall c, In c (concat blocks) -> In c done.
  Proof.
    intros H. induction H as [|c done blocks H IH Hc|c d done l b r H IH Hc Hp Hd|c d done blocks H IH Hc Hp Hd]; intros e He.
    - destruct He.
    - apply in_or_app. auto.
    - rewrite concat_app in *. cbn [concat] in *. rewrite !in_app_iff in He. rewrite in_app_iff. cbn [In] in *. destruct He as [He|[[He|[->|[]]]|He]]; auto; left; apply IH; rewrite !in_app_iff; auto.
    - rewrite concat_app in He. cbn [concat] in He. rewrite !in_app_iff in He. rewrite in_app_iff. cbn [In] in *. destruct He as [He|[[He|[]]|[]]]; auto.
  Qed.
  Lemma initial_step ord x c done cl blocks : any_order ord -> idn x c -> ~ In c done -> cinv cl blocks -> joined log p done blocks ->
    exists cl' blocks', initial_cluster g info log p ord cl (x, Some c) = Ok cl' /\ cinv cl' blocks' /\ joined log p (done ++ [c]) blocks'.
  Proof.
    intros O Hx Hc I J. unfold initial_cluster. cbn [fst snd]. unfold info. rewrite unary_proof by exact O0.
    assert (Hsh : In c (shown_names log p)) by apply (id_shown _ _ _ _ _ B c x Hx).
    destruct (Qle_bool (fp_node p) (num (frequency log c))) eqn:Eq.
    { apply Qle_bool_iff in Eq. exists cl, blocks. split; [reflexivity|]. split; [exact I|]. apply joined_skip; [exact J|]. intros (_ & L & _). lra. }
    apply Qle_bool_no in Eq.
    assert (Hall : forall y, In y (ord 0 _ (fg_all_connected g x)) <-> fedge g x y <> None \/ fedge g y y <> None).
    { intros y. rewrite <- (fg_all_connected_In g x y (es_tidy _ _ _ _ _ St)). split; apply Permutation_in; [apply O|apply Permutation_sym, O]. }
    destruct (strongest_proof x c (ord 0 _ (fg_all_connected g x))) as (best & -> & Hb).
    { intros y Hy. apply Hall in Hy. destruct Hy as [Hy|Hy]; destruct (edge_idn _ _ Hy) as (a & b & H1 & H2); eauto. }
    cbn [bind].
    assert (Hopt : forall y d, idn y d -> (In y (ord 0 _ (fg_all_connected g x)) /\ y <> x <-> option_for log p c d)).
    { intros y d Hy. rewrite Hall, (idn_edge x y c d Hx Hy), (idn_edge y y d d Hy Hy). unfold option_for. split; intros [H1 H2].
      - split; [intros ->; apply H2, (idn_fun y x c Hy Hx)|exact H1].
      - split; [exact H2|]. intros ->. apply H1, (idn_inj x d c Hy Hx). }
    assert (Hoid : forall d, option_for log p c d -> exists y, idn y d). { intros d [_ [H|H]]; apply third_shown in H; apply shown_idn, H. }
    destruct best as [[q m]|].
    - destruct Hb as (d & Hd & Hm & Hmx & -> & Hmax).
      assert (Hcl : clustered log p c) by (split; [exact Hsh|split; [exact Eq|exists d; apply (Hopt m d Hd); auto]]).
      assert (Hpa : partner log p c d).
      { split; [apply (Hopt m d Hd); auto|]. intros e He. destruct (Hoid e He) as (y & Hy). apply (Hopt y e Hy) in He. destruct He as [H1 H2]. apply (Hmax y e H1 H2 Hy). }
      assert (Hnew : dget N.eq_dec (fc_of cl) x = None).
      { assert (K := of_concat cl blocks x c I Hx). unfold dmem in K. destruct (dget N.eq_dec (fc_of cl) x); [|reflexivity]. exfalso. apply Hc. apply (joined_sub _ _ J), K. reflexivity. }
      assert (Hcb : ~ In c (concat blocks)) by (intros K; apply Hc, (joined_sub _ _ J), K).
      assert (Hno : forall i s, In (i, s) (fc_sets cl) -> ~ In x s) by (intros i s Hi Hin; assert (K : dget N.eq_dec (fc_of cl) x = Some i) by (apply (ci_of _ _ I); eauto); congruence).
      destruct (dget N.eq_dec (fc_of cl) m) as [i|] eqn:Em.
      + assert (Em' := Em). apply (ci_of _ _ I) in Em'. destruct Em' as (s & Hi & Hms).
        assert (Hgi : dget N.eq_dec (fc_sets cl) i = Some s) by (apply In_dget; [apply (ci_keys _ _ I)|exact Hi]). rewrite Hgi.
        destruct (dget_split _ _ _ (ci_keys _ _ I) Hgi) as (l & r & El & Es & _). rewrite Es.
        assert (Sp := ci_sets _ _ I). rewrite El in Sp. destruct (blks_split _ _ _ _ _ Sp) as (L & b & R & -> & HL & Hbs & HR).
        assert (Ead : id_add s x = s ++ [x]). { unfold id_add. rewrite (proj2 (id_mem_no x s)); [reflexivity|]. apply (Hno i s Hi). } rewrite Ead.
        eexists _, (L ++ (b ++ [c]) :: R). split; [reflexivity|]. split.
        * split; cbn [fc_sets fc_of fc_next].
          -- assert (Kn := ci_keys _ _ I). rewrite El in Kn. unfold dkeys in *. rewrite map_app in *. exact Kn.
          -- assert (Kn := ci_next _ _ I). rewrite El in Kn. unfold dkeys in *. rewrite map_app in *. exact Kn.
          -- apply Forall2_app; [exact HL|]. constructor; [|exact HR]. cbn [snd]. apply Forall2_app; [exact Hbs|]. constructor; [exact Hx|constructor].
          -- intros y j. rewrite dget_dset. destruct (N.eq_dec x y) as [<-|Hne].
             ++ split.
                ** intros E. injection E as <-. exists (s ++ [x]). split; [apply in_or_app; right; left; reflexivity|apply in_or_app; right; left; reflexivity].
                ** intros (s' & H1 & H2). apply in_app_or in H1. destruct H1 as [H1|[H1|H1]]; [| congruence |].
                   --- exfalso. apply (Hno j s'); [rewrite El; apply in_or_app; auto|exact H2].
                   --- exfalso. apply (Hno j s'); [rewrite El; apply in_or_app; right; right; exact H1|exact H2].
             ++ rewrite (ci_of _ _ I). split; intros (s' & H1 & H2).
                ** rewrite El in H1. apply in_app_or in H1. destruct H1 as [H1|[H1|H1]].
                   --- exists s'. split; [apply in_or_app; auto|exact H2].
                   --- injection H1 as <- <-. exists (s ++ [x]). split; [apply in_or_app; right; left; reflexivity|apply in_or_app; auto].
                   --- exists s'. split; [apply in_or_app; right; right; exact H1|exact H2].
                ** rewrite El. apply in_app_or in H1. destruct H1 as [H1|[H1|H1]].
                   --- exists s'. split; [apply in_or_app; auto|exact H2].
                   --- injection H1 as <- <-. exists s. split; [apply in_or_app; right; left; reflexivity|]. apply in_app_or in H2. destruct H2 as [H2|[H2|[]]]; [exact H2|congruence].
                   --- exists s'. split; [apply in_or_app; right; right; exact H1|exact H2].
          -- assert (Ho := ci_once _ _ I). apply (Permutation_NoDup (l := c :: concat (L ++ b :: R))); [|constructor; assumption].
             rewrite !concat_app. cbn [concat]. rewrite <- !app_assoc. cbn [app]. rewrite !app_assoc. apply Permutation_cons_app. reflexivity.
          -- intros b' Hb'. apply in_app_or in Hb'. destruct Hb' as [Hb'|[<-|Hb']]; [apply (ci_some _ _ I), in_or_app; auto|intros E0; apply app_eq_nil in E0; destruct E0; discriminate|apply (ci_some _ _ I), in_or_app; right; right; exact Hb'].
        * eapply joined_come; [exact J|exact Hcl|exact Hpa|]. apply (blk_In s b m d Hbs Hd), Hms.
      + assert (Hfr : ~ In (fc_next cl) (dkeys (fc_sets cl))) by (intros K; apply (ci_next _ _ I) in K; lia).
        rewrite (dset_new _ _ _ Hfr). eexists _, (blocks ++ [[c]]). split; [reflexivity|]. split.
        * split; cbn [fc_sets fc_of fc_next].
          -- unfold dkeys. rewrite map_app. cbn [map fst]. apply (Permutation_NoDup (l := fc_next cl :: dkeys (fc_sets cl))); [apply Permutation_cons_append|constructor; [exact Hfr|apply (ci_keys _ _ I)]].
          -- intros j Hj. unfold dkeys in Hj. rewrite map_app in Hj. apply in_app_or in Hj. destruct Hj as [Hj|[<-|[]]]; [apply (ci_next _ _ I) in Hj; lia|cbn [fst]; lia].
          -- apply Forall2_app; [apply (ci_sets _ _ I)|]. constructor; [|constructor]. constructor; [exact Hx|constructor].
          -- intros y j. rewrite dget_dset. destruct (N.eq_dec x y) as [<-|Hne].
             ++ split.
                ** intros E. injection E as <-. exists [x]. split; [apply in_or_app; right; left; reflexivity|left; reflexivity].
                ** intros (s' & H1 & H2). apply in_app_or in H1. destruct H1 as [H1|[H1|[]]]; [|congruence]. exfalso. apply (Hno j s' H1 H2).
             ++ rewrite (ci_of _ _ I). split; intros (s' & H1 & H2).
                ** exists s'. split; [apply in_or_app; auto|exact H2].
                ** apply in_app_or in H1. destruct H1 as [H1|[H1|[]]]; [eauto|]. injection H1 as <- <-. destruct H2 as [H2|[]]. congruence.
          -- rewrite concat_app. cbn [concat app]. apply (Permutation_NoDup (l := c :: concat blocks)); [apply Permutation_cons_append|constructor; [exact Hcb|apply (ci_once _ _ I)]].
          -- intros b' Hb'. apply in_app_or in Hb'. destruct Hb' as [Hb'|[<-|[]]]; [apply (ci_some _ _ I), Hb'|discriminate].
        * eapply joined_new; [exact J|exact Hcl|exact Hpa|]. intros K. apply (of_concat cl blocks m d I Hd) in K. unfold dmem in K. rewrite Em in K. discriminate.
    - exists cl, blocks. split; [reflexivity|]. split; [exact I|]. apply joined_skip; [exact J|]. intros (_ & _ & d & Hd). destruct (Hoid d Hd) as (y & Hy). apply (Hopt y d Hy) in Hd. destruct Hd as [H1 H2]. apply H2, Hb, H1.
  Qed.
  Variable ords : nat -> nat -> forall A : Type, list A -> list A.
  Hypothesis Os : forall i, any_order (ords i).
  Lemma initial_loop (l : list (N * option pystr)) : forall i done cl blocks, (forall n, In n l -> exists x c, n = (x, Some c) /\ idn x c) ->
    NoDup (done ++ flat_map (fun n => match snd n with Some c => [c] | None => [] end) l) -> cinv cl blocks -> joined log p done blocks ->
    exists cl' blocks', initial_clusters ords g info log p l i cl = Ok cl' /\ cinv cl' blocks' /\ joined log p (done ++ flat_map (fun n => match snd n with Some c => [c] | None => [] end) l) blocks'.
  Proof.
    induction l as [|n l IH]; intros i done cl blocks Hl Hn I J; cbn [initial_clusters flat_map].
    - exists cl, blocks. rewrite app_nil_r. auto.
    - destruct (Hl n (or_introl eq_refl)) as (x & c & -> & Hx). cbn [flat_map snd app] in Hn |- *.
      destruct (initial_step (ords (3 * i + 1)) x c done cl blocks (Os _) Hx) as (cl' & blocks' & E & I' & J'); [|exact I|exact J|].
      { apply NoDup_remove_2 in Hn. intros K. apply Hn, in_or_app. auto. }
      rewrite E. cbn [bind]. destruct (IH (S i) (done ++ [c]) cl' blocks') as (cl2 & blocks2 & E2 & I2 & J2).
      + intros n' H'. apply Hl. right. exact H'.
      + rewrite <- app_assoc. exact Hn.
      + exact I'.
      + exact J'.
      + exists cl2, blocks2. rewrite <- app_assoc in J2. auto.
  Qed.

  (** ** Merging *)
  Lemma Qsum_app l l' : (fold_right Qplus 0 (l ++ l') == fold_right Qplus 0 l + fold_right Qplus 0 l')%Q.
  Proof. induction l as [|x l IH]; cbn [app fold_right]; [lra|]. rewrite IH. lra. Qed.
  Lemma correlation_proof s b s' b' : blk s b -> blk s' b' -> exists q, clusters_correlation g log s s' = Ok q /\ (q == mean_distance log b b')%Q.
  Proof.
    intros H H'. unfold clusters_correlation.
    assert (P : Forall2 (fun xy ab => idn (fst xy) (fst ab) /\ idn (snd xy) (snd ab)) (list_prod s s') (list_prod b b')).
    { clear -H H'. induction H as [|x a s b Hx H IH]; cbn [list_prod]; [constructor|]. apply Forall2_app; [|exact IH]. clear IH H.
      induction H' as [|y d s' b' Hy H' IH']; cbn [map]; constructor; auto. }
    assert (G : forall l m, Forall2 (fun xy ab => idn (fst xy) (fst ab) /\ idn (snd xy) (snd ab)) l m -> forall q n,
      exists q', loopM (fun s xy => bind (fg_name g (fst xy)) (fun x => bind (fg_name g (snd xy)) (fun y => Ok ((fst s + proximity_correlation log x y)%Q, S (snd s))))) l (q, n) = Ok (q', length m + n) /\
        (q' == q + fold_right Qplus 0 (map (fun cd => distance log (fst cd) (snd cd)) m))%Q).
    { intros l m F. induction F as [|[x y] [a d] l m [Hx Hy] F IH]; intros q n.
      - exists q. split; [reflexivity|]. cbn. lra.
      - cbn [fst snd] in *. rewrite loopM_cons. cbn [fst snd]. rewrite (idn_name x a Hx), (idn_name y d Hy). cbn [bind]. rewrite proximity_proof.
        destruct (IH (q + distance log a d)%Q (S n)) as (q' & E & Hq). exists q'. split.
        + rewrite E. cbn [length]. rewrite Nat.add_succ_r. reflexivity.
        + rewrite Hq. cbn [map fold_right fst snd]. lra. }
    destruct (G _ _ P 0%Q 0) as (q & E & Hq). rewrite E. cbn [bind fst snd]. eexists. split; [reflexivity|].
    rewrite Nat.add_0_r, prod_length. unfold mean_distance. fold (total_distance log b b') in Hq.
    assert (Hm : (num (length b * length b') == num (length b) * num (length b'))%Q).
    { unfold num, Qeq, Qmult, inject_Z. cbn [Qnum Qden]. rewrite Nat2Z.inj_mul. lia. }
    destruct (length b * length b' =? 0) eqn:E0.
    - apply Nat.eqb_eq in E0. rewrite <- Hm, E0. unfold Qdiv. change (/ num 0)%Q with 0%Q. rewrite Qmult_0_r. reflexivity.
    - change (qn (length b * length b')) with (num (length b * length b')). rewrite Hm, Hq, Qplus_0_l. reflexivity.
  Qed.

  Lemma same_key (d : dict N (list N)) i s s' : NoDup (dkeys d) -> In (i, s) d -> In (i, s') d -> s = s'.
  Proof. intros N H H'. apply (In_dget N.eq_dec) in H, H'; auto. congruence. Qed.

  Definition acc_ok (s : list N) (b : list pystr) (sets : dict N (list N)) (done : list N) (best : option (Q * (N * list N))) : Prop :=
    match best with
    | None => done = []
    | Some (q, (i, t)) => In i done /\ In (i, t) sets /\ (forall d, blk t d -> q == mean_distance log b d)%Q /\
        forall j u d, In j done -> In (j, u) sets -> blk u d -> (mean_distance log b d <= q)%Q
    end.
  Lemma blk_fun s b b' : blk s b -> blk s b' -> b = b'.
  Proof.
    intros H. revert b'. induction H as [|x a s b Hx H IH]; intros b' H'; inversion H' as [|? a' ? b2 Hx' H2]; subst; [reflexivity|]. rewrite (IH _ H2), (idn_inj x a a' Hx Hx'). reflexivity.
  Qed.
  Lemma most_proof s b (l : list N) (sets : dict N (list N)) : blk s b -> NoDup (dkeys sets) -> (forall i t, In (i, t) sets -> exists d, blk t d) -> (forall i, In i l -> In i (dkeys sets)) ->
    exists best, most_correlated g log s l sets = Ok best /\ acc_ok s b sets l best.
  Proof.
    intros Hs Hk Hd Hl. unfold most_correlated.
    assert (G : forall l done best, (forall i, In i l -> In i (dkeys sets)) -> acc_ok s b sets done best -> exists best', loopM (fun best c =>
      match dget N.eq_dec sets c with
      | None => rpanic
      | Some s0 => bind (clusters_correlation g log s s0) (fun corr =>
          Ok (match best with Some (m, _) => if Qlt_bool m corr then Some (corr, (c, s0)) else best | None => Some (corr, (c, s0)) end))
      end) l best = Ok best' /\ acc_ok s b sets (done ++ l) best').
    { clear l Hl. induction l as [|i l IH]; intros done best Hl Hb; [exists best; rewrite app_nil_r; auto|].
      assert (Hi := Hl i (or_introl eq_refl)). apply (dget_Some_key N.eq_dec) in Hi. destruct Hi as (t & Et). assert (Hit := dget_In N.eq_dec _ _ _ Et). destruct (Hd i t Hit) as (d & Hbd).
      destruct (correlation_proof s b t d Hs Hbd) as (q & Eq & Hq). rewrite loopM_cons, Et, Eq. cbn [bind].
      replace (done ++ i :: l) with ((done ++ [i]) ++ l) by (rewrite <- app_assoc; reflexivity). apply IH; [intros; apply Hl; right; assumption|].
      assert (Hq' : forall u e, In (i, u) sets -> blk u e -> (mean_distance log b e == q)%Q).
      { intros u e Hu He. rewrite (same_key _ _ _ _ Hk Hu Hit) in He. rewrite (blk_fun _ _ _ He Hbd). lra. }
      destruct best as [[m [i' t']]|]; cbn [acc_ok] in *.
      - destruct Hb as (H1 & H2 & H3 & H4). destruct (Qlt_bool m q) eqn:E.
        + apply Qlt_bool_iff in E. cbn [acc_ok]. split; [apply in_or_app; right; left; reflexivity|]. split; [exact Hit|]. split; [intros e He; rewrite (Hq' t e Hit He); lra|].
          intros j u e Hj Hu He. apply in_app_or in Hj. destruct Hj as [Hj|[<-|[]]]; [specialize (H4 j u e Hj Hu He); lra|rewrite (Hq' u e Hu He); lra].
        + assert (L : (q <= m)%Q). { destruct (Qlt_le_dec m q) as [L|L]; [|exact L]. apply Qlt_bool_iff in L. congruence. }
          cbn [acc_ok]. split; [apply in_or_app; auto|]. split; [exact H2|]. split; [exact H3|].
          intros j u e Hj Hu He. apply in_app_or in Hj. destruct Hj as [Hj|[<-|[]]]; [apply (H4 j u e Hj Hu He)|rewrite (Hq' u e Hu He); exact L].
      - subst done. split; [left; reflexivity|]. split; [exact Hit|]. split; [intros e He; rewrite (Hq' t e Hit He); lra|].
        intros j u e [<-|[]] Hu He. rewrite (Hq' u e Hu He). lra. }
    destruct (G l [] None Hl eq_refl) as (best & E & Hb). exists best. split; [exact E|exact Hb].
  Qed.

  Lemma other_proof cl s l : NoDup (other_clusters cl s l) /\ forall i, In i (other_clusters cl s l) <-> exists y, In y l /\ ~ In y s /\ dget N.eq_dec (fc_of cl) y = Some i.
  Proof.
    unfold other_clusters.
    assert (G : forall l acc, NoDup acc -> let r := fold_left (fun s0 n => if id_mem n s then s0 else match dget N.eq_dec (fc_of cl) n with Some c => id_add s0 c | None => s0 end) l acc in
      NoDup r /\ forall i, In i r <-> In i acc \/ exists y, In y l /\ ~ In y s /\ dget N.eq_dec (fc_of cl) y = Some i).
    { clear l. induction l as [|y l IH]; intros acc Ha; cbn [fold_left]; cbn zeta.
      - split; [exact Ha|]. intros i. split; [auto|]. intros [H|(y & [] & _)]. exact H.
      - set (acc' := if id_mem y s then acc else match dget N.eq_dec (fc_of cl) y with Some c => id_add acc c | None => acc end).
        assert (H' : NoDup acc' /\ forall i, In i acc' <-> In i acc \/ (~ In y s /\ dget N.eq_dec (fc_of cl) y = Some i)).
        { unfold acc'. destruct (id_mem y s) eqn:Ey.
          - apply id_mem_In in Ey. split; [exact Ha|]. intros i. tauto.
          - apply id_mem_no in Ey. destruct (dget N.eq_dec (fc_of cl) y) as [c|].
            + split; [apply id_add_NoDup, Ha|]. intros i. rewrite id_add_In. split; [intros [H| ->]; auto|intros [H|[_ H]]; [auto|injection H as ->; auto]].
            + split; [exact Ha|]. intros i. split; [auto|]. intros [H|[_ H]]; [exact H|discriminate]. }
        destruct H' as [Hn Hi]. destruct (IH acc' Hn) as [I1 I2]. split; [exact I1|]. intros i. rewrite I2, Hi. cbn [In]. split.
        + intros [[H|[H1 H2]]|(y' & H1 & H2 & H3)]; [auto|right; exists y; auto|right; exists y'; auto].
        + intros [H|(y' & [<-|H1] & H2 & H3)]; [auto|auto|right; exists y'; auto]. }
    destruct (G l [] (NoDup_nil _)) as [H1 H2]. cbn zeta in *. split; [exact H1|]. intros i. rewrite H2. cbn [In]. tauto.
  Qed.
  Lemma blks_In sets blocks i s : blks sets blocks -> In (i, s) sets -> exists b, blk s b /\ In b blocks.
  Proof. intros H. induction H as [|[j t] b sets blocks Hb H IH]; [intros []|]. intros [E|Hin]; [injection E as -> ->; exists b; split; [exact Hb|left; reflexivity]|]. destruct (IH Hin) as (d & H1 & H2). exists d. split; [exact H1|right; exact H2]. Qed.
  Lemma blks_In_r sets blocks b : blks sets blocks -> In b blocks -> exists i s, In (i, s) sets /\ blk s b.
  Proof. intros H. induction H as [|[j t] b' sets blocks Hb H IH]; [intros []|]. intros [<-|Hin]; [exists j, t; split; [left; reflexivity|exact Hb]|]. destruct (IH Hin) as (i & s & H1 & H2). exists i, s. split; [right; exact H1|exact H2]. Qed.
  Lemma adds_app s : forall acc : list N, NoDup s -> (forall x, In x s -> ~ In x acc) -> fold_left id_add s acc = acc ++ s.
  Proof.
    induction s as [|x s IH]; intros acc Hn Hd; cbn [fold_left]; [rewrite app_nil_r; reflexivity|]. inversion Hn as [|? ? Hx Hn']; subst. unfold id_add at 2. rewrite (proj2 (id_mem_no x acc)) by (apply Hd; left; reflexivity).
    rewrite IH; [rewrite <- app_assoc; reflexivity|exact Hn'|]. intros y Hy K. apply in_app_or in K. destruct K as [K|[<-|[]]]; [apply (Hd y); [right; exact Hy|exact K]|auto].
  Qed.
  Lemma sets_adds l (c : N) : forall m y, dget N.eq_dec (fold_left (fun m n => dset N.eq_dec m n c) l m) y = if id_mem y l then Some c else dget N.eq_dec m y.
  Proof.
    induction l as [|x l IH]; intros m y; cbn [fold_left]; [reflexivity|]. rewrite IH, dget_dset. unfold id_mem. destruct (in_dec N.eq_dec y l), (in_dec N.eq_dec y (x :: l)), (N.eq_dec x y); try reflexivity; cbn [In] in *; tauto.
  Qed.

  (** One try to merge a cluster with another one. *)
  Lemma try_proof edge ord cl blocks i s b nodes : (forall A (l : list A), Permutation (ord A l) l) -> cinv cl blocks -> In (i, s) (fc_sets cl) -> blk s b ->
    (forall y, In y nodes -> exists d, idn y d) -> (forall y d, idn y d -> (In y nodes <-> exists c, In c b /\ edge c d)) -> (forall c d, In c b -> edge c d -> In d (shown_names log p)) ->
    exists r, try_merge_clusters g log ord cl i s nodes = Ok r /\
      match r with
      | None => ~ ready edge blocks b
      | Some cl' => exists d rest, Permutation blocks (b :: d :: rest) /\ ready edge blocks b /\ reaches edge b d /\
          (forall f, In f rest -> reaches edge b f -> (mean_distance log b f <= mean_distance log b d)%Q) /\ cinv cl' (rest ++ [b ++ d])
      end.
  Proof.
    intros O I Hi Hb Hn He Hsh. unfold try_merge_clusters.
    assert (Hbb : forall c, In c b -> In c (concat blocks)).
    { intros c Hc. destruct (blk_id s b c Hb Hc) as (x & Hx & Hxs). apply (blks_in _ _ x c (ci_sets _ _ I) Hx). eauto. }
    assert (Hall : forallb (fun n => id_mem n s || dmem N.eq_dec (fc_of cl) n) nodes = true <-> forall c d, In c b -> edge c d -> In d (concat blocks)).
    { rewrite forallb_forall. split.
      - intros H c d Hc Hcd. destruct (shown_idn d (Hsh c d Hc Hcd)) as (y & Hy). assert (Hin : In y nodes) by (apply (He y d Hy); eauto).
        specialize (H y Hin). apply orb_true_iff in H. destruct H as [H|H].
        + apply id_mem_In in H. apply Hbb, (blk_In s b y d Hb Hy), H.
        + apply (of_concat cl blocks y d I Hy), H.
      - intros H y Hy. destruct (Hn y Hy) as (d & Hd). apply orb_true_iff. right. apply (of_concat cl blocks y d I Hd). apply (He y d Hd) in Hy. destruct Hy as (c & H1 & H2). apply (H c d H1 H2). }
    destruct (forallb _ nodes) eqn:Ef; [|exists None; split; [reflexivity|intros [H _]; apply Hall in H; discriminate]].
    assert (Hrd := proj1 Hall eq_refl). clear Hall.
    destruct (other_proof cl s nodes) as [On Oi].
    assert (Hcand : forall j, In j (ord _ (other_clusters cl s nodes)) <-> exists y, In y nodes /\ ~ In y s /\ dget N.eq_dec (fc_of cl) y = Some j).
    { intros j. rewrite <- Oi. split; apply Permutation_in; [apply O|apply Permutation_sym, O]. }
    destruct (most_proof s b (ord _ (other_clusters cl s nodes)) (fc_sets cl) Hb (ci_keys _ _ I)) as (best & -> & Hbest).
    { intros j t Ht. destruct (blks_In _ _ _ _ (ci_sets _ _ I) Ht) as (d & H1 & _). eauto. }
    { intros j Hj. apply Hcand in Hj. destruct Hj as (y & _ & _ & H). apply (ci_of _ _ I) in H. destruct H as (t & Ht & _). apply (in_map fst) in Ht. exact Ht. }
    cbn [bind]. destruct best as [[q [j t]]|].
    - destruct Hbest as (Hj & Hjt & Hq & Hmax). cbn zeta. eexists. split; [reflexivity|].
      assert (Hj' := Hj). apply Hcand in Hj'. destruct Hj' as (y & Hyn & Hys & Hyj). assert (Hyj' := Hyj). apply (ci_of _ _ I) in Hyj'. destruct Hyj' as (t' & Ht' & Hyt). rewrite (same_key _ _ _ _ (ci_keys _ _ I) Ht' Hjt) in Hyt. clear t' Ht'.
      assert (Hij : i <> j) by (intros <-; rewrite (same_key _ _ _ _ (ci_keys _ _ I) Hi Hjt) in Hys; auto).
      destruct (Hn y Hyn) as (dy & Hdy). assert (Hed := proj1 (He y dy Hdy) Hyn). destruct Hed as (cy & Hcy & Hedge).
      assert (Hgi : dget N.eq_dec (fc_sets cl) i = Some s) by (apply In_dget; [apply (ci_keys _ _ I)|exact Hi]).
      destruct (dget_split _ _ _ (ci_keys _ _ I) Hgi) as (l & r & El & _ & Ed). rewrite Ed.
      assert (Sp := ci_sets _ _ I). rewrite El in Sp. destruct (blks_split _ _ _ _ _ Sp) as (L & b0 & R & Eb & HL & Hb0 & HR). rewrite (blk_fun s b0 b Hb0 Hb) in Eb. clear b0 Hb0.
      assert (Klr : NoDup (i :: dkeys (l ++ r))).
      { apply (Permutation_NoDup (l := dkeys (fc_sets cl))); [|apply (ci_keys _ _ I)]. rewrite El. unfold dkeys. rewrite !map_app. cbn [map fst]. apply Permutation_sym, Permutation_middle. }
      apply NoDup_cons_iff in Klr. destruct Klr as [Kil Klr'].
      assert (Hjlr : In (j, t) (l ++ r)). { rewrite El in Hjt. apply in_app_or in Hjt. apply in_or_app. destruct Hjt as [H|[H|H]]; [auto|congruence|auto]. }
      assert (Hgj : dget N.eq_dec (l ++ r) j = Some t) by (apply In_dget; assumption).
      destruct (dget_split _ _ _ Klr' Hgj) as (l2 & r2 & El2 & _ & Ed2). rewrite Ed2.
      assert (Slr : blks (l ++ r) (L ++ R)) by (apply Forall2_app; assumption). rewrite El2 in Slr. destruct (blks_split _ _ _ _ _ Slr) as (L2 & d & R2 & Eb2 & HL2 & Hd & HR2).
      assert (Pb : Permutation blocks (b :: d :: L2 ++ R2)).
      { rewrite Eb. rewrite <- Permutation_middle. apply perm_skip. rewrite Eb2. apply Permutation_sym, Permutation_middle. }
      assert (Kl2 : NoDup (j :: dkeys (l2 ++ r2))).
      { apply (Permutation_NoDup (l := dkeys (l ++ r))); [|exact Klr']. rewrite El2. unfold dkeys. rewrite !map_app. cbn [map fst]. apply Permutation_sym, Permutation_middle. }
      apply NoDup_cons_iff in Kl2. destruct Kl2 as [Kjl Kl2'].
      assert (Hsub : forall j' t', In (j', t') (l2 ++ r2) -> In (j', t') (fc_sets cl) /\ j' <> i /\ j' <> j).
      { intros j' t' H. assert (H2 : In (j', t') (l ++ r)) by (rewrite El2; apply in_app_or in H; apply in_or_app; destruct H; [auto|right; right; assumption]). split; [rewrite El; apply in_app_or in H2; apply in_or_app; destruct H2; [auto|right; right; assumption]|]. split.
        - intros ->. apply Kil. apply (in_map fst) in H2. exact H2.
        - intros ->. apply Kjl. apply (in_map fst) in H. exact H. }
      assert (Honce := ci_once _ _ I). assert (Pc : Permutation (concat blocks) ((b ++ d) ++ concat (L2 ++ R2))).
      { rewrite <- app_assoc. change (b ++ d ++ concat (L2 ++ R2)) with (concat (b :: d :: L2 ++ R2)). clear -Pb. induction Pb as [|x u v H IH|x z u|u v w H IH H' IH']; cbn [concat]; [reflexivity|apply Permutation_app_head, IH| |etransitivity; eassumption].
        rewrite !app_assoc. apply Permutation_app_tail, Permutation_app_comm. }
      assert (Nbd : NoDup ((b ++ d) ++ concat (L2 ++ R2))) by (apply (Permutation_NoDup Pc), Honce).
      assert (Nst : NoDup (s ++ t)). { apply (blk_NoDup (s ++ t) (b ++ d)); [apply Forall2_app; assumption|]. clear -Nbd. induction (b ++ d) as [|x u IH]; [constructor|]. cbn [app] in Nbd. inversion Nbd as [|? ? H H']; subst. constructor; [intros K; apply H, in_or_app; auto|auto]. }
      assert (Est : fold_left id_add t s = s ++ t).
      { apply adds_app; [clear -Nst; induction s as [|z s IH]; [exact Nst|]; cbn [app] in Nst; inversion Nst; auto|]. intros x Hx K. clear -Nst Hx K. induction s as [|z s IH]; [destruct K|]. cbn [app] in Nst. inversion Nst as [|? ? H H']; subst. destruct K as [<-|K]; [apply H, in_or_app; auto|auto]. }
      rewrite Est.
      exists d, (L2 ++ R2). split; [exact Pb|]. split; [split; [exact Hrd|exists cy, dy; split; [exact Hcy|split; [|exact Hedge]]; intros K; apply Hys, (blk_In s b y dy Hb Hdy), K]|].
      split; [exists cy, dy; split; [exact Hcy|split; [|exact Hedge]]; apply (blk_In t d y dy Hd Hdy), Hyt|]. split.
      + intros f Hf (c1 & d1 & Hc1 & Hd1 & He1). assert (Hrest : blks (l2 ++ r2) (L2 ++ R2)) by (apply Forall2_app; assumption).
        destruct (blks_In_r _ _ f Hrest Hf) as (j' & t' & Hj' & Hf'). destruct (Hsub _ _ Hj') as (H1 & H2 & H3).
        destruct (blk_id t' f d1 Hf' Hd1) as (y1 & Hy1 & Hy1t). rewrite <- (Hq d Hd). apply (Hmax j' t' f); [|exact H1|exact Hf']. apply Hcand. exists y1.
        assert (Hof : dget N.eq_dec (fc_of cl) y1 = Some j') by (apply (ci_of _ _ I); eauto). split; [apply (He y1 d1 Hy1); eauto|]. split; [|exact Hof].
        intros K. assert (Hof' : dget N.eq_dec (fc_of cl) y1 = Some i) by (apply (ci_of _ _ I); eauto). congruence.
      + assert (Hfr : ~ In (fc_next cl) (dkeys (l2 ++ r2))).
        { intros K. apply in_map_iff in K. destruct K as ([j' t'] & E & K). cbn [fst] in E. subst j'. apply Hsub in K. destruct K as [K _]. apply (in_map fst) in K. apply (ci_next _ _ I) in K. cbn [fst] in K. lia. }
        rewrite (dset_new _ _ _ Hfr). split; cbn [fc_sets fc_of fc_next].
        * unfold dkeys. rewrite map_app. cbn [map fst]. apply (Permutation_NoDup (l := fc_next cl :: dkeys (l2 ++ r2))); [apply Permutation_cons_append|constructor; assumption].
        * intros j' Hj'. unfold dkeys in Hj'. rewrite map_app in Hj'. apply in_app_or in Hj'. destruct Hj' as [Hj'|[<-|[]]]; [|cbn [fst]; lia]. apply in_map_iff in Hj'. destruct Hj' as ([j2 t2] & <- & Hj'). apply Hsub in Hj'. destruct Hj' as [Hj' _]. apply (in_map fst) in Hj'. apply (ci_next _ _ I) in Hj'. cbn [fst] in *. lia.
        * apply Forall2_app; [apply Forall2_app; assumption|]. constructor; [|constructor]. apply Forall2_app; assumption.
        * intros x j'. rewrite sets_adds. destruct (id_mem x (s ++ t)) eqn:Ex.
          -- apply id_mem_In in Ex. split.
             ++ intros E. injection E as <-. exists (s ++ t). split; [apply in_or_app; right; left; reflexivity|exact Ex].
             ++ intros (t' & H1 & H2). apply in_app_or in H1. destruct H1 as [H1|[H1|[]]]; [|congruence]. exfalso. destruct (Hsub _ _ H1) as (H3 & H4 & H5).
                assert (Ha : dget N.eq_dec (fc_of cl) x = Some j') by (apply (ci_of _ _ I); eauto). apply in_app_or in Ex. destruct Ex as [Ex|Ex].
                ** assert (Hc : dget N.eq_dec (fc_of cl) x = Some i) by (apply (ci_of _ _ I); eauto). congruence.
                ** assert (Hc : dget N.eq_dec (fc_of cl) x = Some j) by (apply (ci_of _ _ I); eauto). congruence.
          -- apply id_mem_no in Ex. rewrite (ci_of _ _ I). split; intros (t' & H1 & H2).
             ++ exists t'. split; [|exact H2]. apply in_or_app. left. rewrite El in H1.
                assert (H3 : In (j', t') (l ++ r)). { apply in_app_or in H1. apply in_or_app. destruct H1 as [H1|[H1|H1]]; [auto| |auto]. exfalso. injection H1 as <- <-. apply Ex, in_or_app. auto. }
                rewrite El2 in H3. apply in_app_or in H3. apply in_or_app. destruct H3 as [H3|[H3|H3]]; [auto| |auto]. exfalso. injection H3 as <- <-. apply Ex, in_or_app. auto.
             ++ apply in_app_or in H1. destruct H1 as [H1|[H1|[]]]; [exists t'; split; [apply Hsub, H1|exact H2]|]. injection H1 as <- <-. destruct (Ex H2).
        * rewrite concat_app. cbn [concat]. rewrite app_nil_r. apply (Permutation_NoDup (l := (b ++ d) ++ concat (L2 ++ R2))); [apply Permutation_app_comm|exact Nbd].
        * intros b' Hb'. apply in_app_or in Hb'. destruct Hb' as [Hb'|[<-|[]]].
          -- apply (ci_some _ _ I). apply (Permutation_in (l := b :: d :: L2 ++ R2)); [apply Permutation_sym, Pb|]. right. right. exact Hb'.
          -- intros E0. apply app_eq_nil in E0. destruct E0 as [E0 _]. apply (ci_some _ _ I b); [|exact E0]. rewrite Eb. apply in_or_app. right. left. reflexivity.
    - cbn [acc_ok] in Hbest. exists None. split; [reflexivity|]. intros [_ (c & d & Hc & Hd & Hcd)].
      destruct (shown_idn d (Hsh c d Hc Hcd)) as (y & Hy). assert (Hin : In y nodes) by (apply (He y d Hy); eauto).
      assert (Hof := proj2 (of_concat cl blocks y d I Hy) (Hrd c d Hc Hcd)). unfold dmem in Hof. destruct (dget N.eq_dec (fc_of cl) y) as [j|] eqn:E; [|discriminate].
      assert (K : In j (ord _ (other_clusters cl s nodes))) by (apply Hcand; exists y; split; [exact Hin|split; [intros K; apply Hd, (blk_In s b y d Hb Hy), K|exact E]]).
      rewrite Hbest in K. destruct K.
  Qed.

  Lemma around_In (f : N -> list N) s y : In y (around f s) <-> exists x, In x s /\ In y (f x).
  Proof. unfold around. rewrite id_adds_In, in_flat_map. cbn [In]. split; [intros [[]|H]; exact H|auto]. Qed.
  Lemma around_out s b : blk s b -> (forall y, In y (around (fg_outgoing g) s) -> exists d, idn y d) /\ (forall y d, idn y d -> (In y (around (fg_outgoing g) s) <-> exists c, In c b /\ out_edge log p c d)).
  Proof.
    intros Hb. split.
    - intros y Hy. apply around_In in Hy. destruct Hy as (x & _ & Hx). apply fg_outgoing_In, edge_idn in Hx. destruct Hx as (? & d & _ & Hd). eauto.
    - intros y d Hy. rewrite around_In. split.
      + intros (x & Hx & H). apply fg_outgoing_In in H. destruct (blk_name s b x Hb Hx) as (c & Hc & Hcb). exists c. split; [exact Hcb|]. apply (idn_edge x y c d Hc Hy), H.
      + intros (c & Hc & H). destruct (blk_id s b c Hb Hc) as (x & Hx & Hxs). exists x. split; [exact Hxs|]. apply fg_outgoing_In, (idn_edge x y c d Hx Hy), H.
  Qed.
  Lemma around_in s b : blk s b -> (forall y, In y (around (fg_incoming g) s) -> exists d, idn y d) /\ (forall y d, idn y d -> (In y (around (fg_incoming g) s) <-> exists c, In c b /\ in_edge log p c d)).
  Proof.
    intros Hb. assert (T := es_tidy _ _ _ _ _ St). split.
    - intros y Hy. apply around_In in Hy. destruct Hy as (x & _ & Hx). apply (fg_incoming_In _ _ _ T), edge_idn in Hx. destruct Hx as (d & ? & Hd & _). eauto.
    - intros y d Hy. rewrite around_In. unfold in_edge. split.
      + intros (x & Hx & H). apply (fg_incoming_In _ _ _ T) in H. destruct (blk_name s b x Hb Hx) as (c & Hc & Hcb). exists c. split; [exact Hcb|]. apply (idn_edge y x d c Hy Hc), H.
      + intros (c & Hc & H). destruct (blk_id s b c Hb Hc) as (x & Hx & Hxs). exists x. split; [exact Hxs|]. apply (fg_incoming_In _ _ _ T), (idn_edge y x d c Hy Hx), H.
  Qed.
  Lemma merge_first_proof ord cl blocks (l : list N) : any_order ord -> cinv cl blocks -> forall j, (forall i, In i l -> In i (dkeys (fc_sets cl))) ->
    exists r, merge_first g log ord cl l j = Ok r /\
      match r with
      | None => forall i s b, In i l -> In (i, s) (fc_sets cl) -> blk s b -> ~ ready (out_edge log p) blocks b /\ ~ ready (in_edge log p) blocks b
      | Some cl' => exists blocks', merged log p blocks blocks' /\ cinv cl' blocks' /\ length blocks = S (length blocks')
      end.
  Proof.
    intros O I. induction l as [|i l IH]; intros j Hl; cbn [merge_first]; [exists None; split; [reflexivity|intros i s b []]|].
    assert (Hi := Hl i (or_introl eq_refl)). apply (dget_Some_key N.eq_dec) in Hi. destruct Hi as (s & Es). rewrite Es. assert (His := dget_In N.eq_dec _ _ _ Es).
    destruct (blks_In _ _ _ _ (ci_sets _ _ I) His) as (b & Hb & _).
    destruct (around_out s b Hb) as [A1 A2]. destruct (around_in s b Hb) as [A3 A4].
    destruct (try_proof (out_edge log p) (ord (2 * j + 1)) cl blocks i s b _ (O _) I His Hb A1 A2) as (r1 & -> & H1).
    { intros c d _ H. apply third_shown in H. apply H. }
    cbn [bind]. assert (Len : forall d rest, Permutation blocks (b :: d :: rest) -> length blocks = S (length (rest ++ [b ++ d]))).
    { intros d rest H. rewrite (Permutation_length H), app_length. cbn [length]. lia. }
    destruct r1 as [cl1|].
    { destruct H1 as (d & rest & P1 & P2 & P3 & P4 & P5). exists (Some cl1). split; [reflexivity|]. exists (rest ++ [b ++ d]). split; [|split; [exact P5|apply Len, P1]]. eapply merged_some with (edge := out_edge log p); eauto. }
    destruct (try_proof (in_edge log p) (ord (2 * j + 2)) cl blocks i s b _ (O _) I His Hb A3 A4) as (r2 & -> & H2).
    { intros c d _ H. unfold in_edge in H. apply third_shown in H. apply H. }
    cbn [bind]. destruct r2 as [cl2|].
    { destruct H2 as (d & rest & P1 & P2 & P3 & P4 & P5). exists (Some cl2). split; [reflexivity|]. exists (rest ++ [b ++ d]). split; [|split; [exact P5|apply Len, P1]]. eapply merged_some with (edge := in_edge log p); eauto. }
    destruct (IH (S j) (fun i' H => Hl i' (or_intror H))) as (r & E & H). exists r. split; [exact E|]. destruct r as [cl'|]; [exact H|].
    intros i' s' b' [<-|Hi'] Hs' Hb'; [|apply (H i' s' b' Hi' Hs' Hb')]. rewrite (same_key _ _ _ _ (ci_keys _ _ I) Hs' His) in Hb'. rewrite (blk_fun s b' b Hb' Hb). auto.
  Qed.
  Lemma merge_loop fuel : forall i cl blocks, cinv cl blocks -> length blocks < fuel ->
    exists cl' blocks', merge_clusters ords g log fuel i cl = Ok cl' /\ cinv cl' blocks' /\ clos_refl_trans _ (merged log p) blocks blocks' /\ settled log p blocks'.
  Proof.
    induction fuel as [|fuel IH]; intros i cl blocks I Hf; [lia|]. cbn [merge_clusters].
    destruct (merge_first_proof (ords (3 * i + 2)) cl blocks (ords (3 * i + 2) 0 _ (dkeys (fc_sets cl))) (Os _) I 0) as (r & -> & H).
    { intros j Hj. apply (Permutation_in _ (Os _ 0 _ _) Hj). }
    cbn [bind]. destruct r as [cl1|].
    - destruct H as (b1 & H1 & H2 & H3). destruct (IH (S i) cl1 b1 H2) as (cl2 & b2 & E & I2 & R & S2); [lia|]. exists cl2, b2. split; [exact E|]. split; [exact I2|]. split; [|exact S2]. eapply rt_trans; [apply rt_step, H1|exact R].
    - exists cl, blocks. split; [reflexivity|]. split; [exact I|]. split; [apply rt_refl|]. intros b Hb. destruct (blks_In_r _ _ b (ci_sets _ _ I) Hb) as (j & s & Hj & Hs). apply (H j s b); [|exact Hj|exact Hs].
      apply (Permutation_in _ (Permutation_sym (Os _ 0 _ _))). apply (in_map fst) in Hj. exact Hj.
  Qed.
  Lemma joined_length done blocks : joined log p done blocks -> length blocks <= length done.
  Proof. intros H. induction H as [|c done blocks H IH Hc|c d done l b r H IH Hc Hp Hd|c d done blocks H IH Hc Hp Hd]; rewrite ?app_length in *; cbn [length] in *; lia. Qed.
  Lemma fuzzy_clusters_proof fuel next_set : length (shown_names log p) < fuel ->
    exists cl blocks, fuzzy_clusters ords info log p fuel g next_set = Ok cl /\ cinv cl blocks /\ grouped log p blocks.
  Proof.
    intros Hf. unfold fuzzy_clusters. set (l := ords 0 19 _ (fg_nodes g)).
    assert (Hl : forall n, In n l -> exists x c, n = (x, Some c) /\ idn x c).
    { intros [x o] H. apply (Permutation_in _ (Os 0 19 _ _)) in H. apply (In_dget N.eq_dec) in H; [|apply (ba_nodes _ _ _ _ _ B)]. destruct (ba_named _ _ _ _ _ B x o H) as [c ->]. exists x, c. split; [reflexivity|]. apply (ba_iff _ _ _ _ _ B), H. }
    assert (Pl : Permutation (flat_map (fun n => match snd n with Some c => [c] | None => [] end) l) (shown_names log p)).
    { destruct (names_ok log p (fg_nodes g) ids next (ords 0 19) B (Os 0 19)) as (names & E & P). fold l in E. etransitivity; [|exact P].
      replace (flat_map (fun n : N * option pystr => match snd n with Some c => [c] | None => [] end) l) with names; [reflexivity|].
      clear -E Hl. revert names E Hl. induction l as [|[x o] l IH]; intros names E Hl; cbn [mapM flat_map snd] in *; [injection E as <-; reflexivity|].
      destruct (Hl (x, o) (or_introl eq_refl)) as (x' & c & Ec & _). injection Ec as <- ->. cbn [bind] in E. destruct (mapM _ l) as [r|] eqn:M; [|discriminate]. cbn [bind] in E. injection E as <-. cbn [app]. f_equal. apply IH; [reflexivity|]. intros; apply Hl; right; assumption. }
    destruct (initial_loop l 0 [] (mkFClusters [] [] next_set) [] Hl) as (cl & blocks & -> & I & J).
    { cbn [app]. apply (Permutation_NoDup (Permutation_sym Pl)), shown_NoDup. }
    { split; cbn; [constructor|intros ? []|constructor| |constructor|intros ? []]. intros x c. split; [discriminate|]. intros (s & [] & _). }
    { constructor. }
    cbn [bind]. cbn [app] in J. assert (Hlen := joined_length _ _ J). rewrite (Permutation_length Pl) in Hlen.
    destruct (merge_loop fuel 0 cl blocks I) as (cl' & blocks' & E & I' & R & S'); [lia|]. exists cl', blocks'. split; [exact E|]. split; [exact I'|]. exists (flat_map (fun n => match snd n with Some c => [c] | None => [] end) l), blocks. auto.
  Qed.
End Clusters.
