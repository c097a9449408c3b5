(** Proofs about the fuzzy miner: the whole. *)
From Coq Require Import QArith Permutation Relations Lqa.
From Verif Require Import Py PyFacts InfoModel InfoSpec InfoProofs ReplayModel RInfoModel RInfoSpec RInfoProofs AlphaModel HeurModel HeurSpec HeurProofs2 FuzzyModel FuzzySpec FuzzyProofs1 FuzzyProofs2 FuzzyProofs3 FuzzyProofs4 FuzzyProofs5.
Open Scope nat_scope.

Lemma NoDup_app_parts {A} (l l' : list A) : NoDup (l ++ l') -> NoDup l /\ NoDup l' /\ forall x, In x l -> ~ In x l'.
Proof.
  induction l as [|x l IH]; cbn [app]; intros H; [split; [constructor|split; [exact H|intros ? []]]|]. inversion H as [|? ? Hx Hl]; subst. destruct (IH Hl) as (H1 & H2 & H3). split; [constructor; [|exact H1]; intros K; apply Hx, in_or_app; auto|]. split; [exact H2|].
  intros y [<-|Hy]; [intros K; apply Hx, in_or_app; auto|apply H3, Hy].
Qed.
Lemma without_app s s' nodes : without (s ++ s') nodes = without s' (without s nodes).
Proof.
  unfold without. induction nodes as [|[i u] nodes IH]; [reflexivity|]. cbn [filter fst]. assert (E : id_mem i (s ++ s') = id_mem i s || id_mem i s').
  { destruct (id_mem i s) eqn:E1; cbn [orb]; [apply id_mem_In, in_or_app; left; apply id_mem_In, E1|]. apply id_mem_no in E1. destruct (id_mem i s') eqn:E2; [apply id_mem_In, in_or_app; right; apply id_mem_In, E2|]. apply id_mem_no in E2. apply id_mem_no. intros K. apply in_app_or in K. tauto. }
  rewrite E. destruct (id_mem i s); cbn [orb negb]; [exact IH|]. cbn [filter fst]. destruct (id_mem i s'); cbn [negb]; [exact IH|rewrite IH; reflexivity].
Qed.
Section Whole.
  Variable ords : nat -> nat -> forall A : Type, list A -> list A.
  Hypothesis Os : forall i, any_order (ords i).
  Variable log : flog.
  Variable p : fparams.
  Lemma merge_nodes_proof (sets : list (list N)) (blocks : list (list pystr)) : forall nodes i g next, quot log p nodes g next -> NoDup (concat sets) -> NoDup (concat blocks) ->
    Forall2 (Forall2 (fun x c => In (x, Plain c) nodes)) sets blocks ->
    exists g' next' nodes', merge_nodes ords sets i (g, next) = Ok (g', next') /\ quot log p nodes' g' next' /\
      Permutation (map snd nodes') (map snd (without (concat sets) nodes) ++ map Cluster blocks).
  Proof.
    revert blocks. induction sets as [|s sets IH]; intros blocks nodes i g next Q Ns Nb F; inversion F as [|? b ? bs Fs Fr]; subst; cbn [merge_nodes].
    - exists g, next, nodes. split; [reflexivity|]. split; [exact Q|]. cbn [concat map]. rewrite app_nil_r. unfold without. cbn. replace (filter (fun _ => true) nodes) with nodes; [reflexivity|]. clear. induction nodes as [|n nodes IH]; [reflexivity|]. cbn [filter]. rewrite <- IH. reflexivity.
    - cbn [concat] in *. destruct (NoDup_app_parts _ _ Ns) as (Ns1 & Ns2 & Ns3). destruct (NoDup_app_parts _ _ Nb) as (Nb1 & Nb2 & _).
      destruct (merge_step log p (ords (3 * i + 3)) nodes g next s b (Os _) Q Ns1 Nb1 Fs) as (g1 & E & Q1). rewrite E. cbn [bind].
      assert (Hsub : forall x, In x (concat sets) -> (x < next)%N).
      { intros x Hx. apply (q_next _ _ _ _ _ Q). apply in_concat in Hx. destruct Hx as (s0 & H0 & Hx). clear -Fr H0 Hx. induction Fr as [|s1 b1 sets bs F1 Fr IH]; [destruct H0|]. destruct H0 as [<-|H0]; [|auto].
        clear -F1 Hx. induction F1 as [|y c s1 b1 H F1 IH]; [destruct Hx|]. destruct Hx as [<-|Hx]; [apply (in_map fst) in H; exact H|auto]. }
      destruct (IH bs (without s nodes ++ [(next, Cluster b)]) (S i) g1 (N.succ next) Q1 Ns2 Nb2) as (g' & next' & nodes' & E' & Q' & P').
      { assert (Hd : forall s0 x, In s0 sets -> In x s0 -> ~ In x s) by (intros s0 x H0 Hx K; apply (Ns3 x K), in_concat; eauto). clear -Fr Hd. induction Fr as [|s1 b1 sets bs F1 Fr IH]; [constructor|]. constructor; [|apply IH; intros; eapply Hd; [right; eassumption|assumption]].
        apply (Forall2_weaken _ _ _ _ F1). intros x c H Hx. apply in_or_app. left. apply without_In. split; [exact H|]. apply (Hd s1 x); [left; reflexivity|exact Hx]. }
      exists g', next', nodes'. split; [exact E'|]. split; [exact Q'|]. rewrite P'. rewrite without_app. cbn [map].
      assert (Ew : without (concat sets) (without s nodes ++ [(next, Cluster b)]) = without (concat sets) (without s nodes) ++ [(next, Cluster b)]).
      { unfold without. rewrite filter_app. f_equal. cbn [filter fst]. rewrite (proj2 (id_mem_no next (concat sets))); [reflexivity|]. intros K. apply Hsub in K. lia. }
      rewrite Ew, map_app. cbn [map snd]. rewrite <- app_assoc. reflexivity.
  Qed.

  Lemma joined_In done blocks : joined log p done blocks -> forall c, In c (concat blocks) <-> In c done /\ clustered log p c.
  Proof.
    intros H. induction H as [|c done blocks H IH Hc|c d done l b r H IH Hc Hp Hd|c d done blocks H IH Hc Hp Hd]; intros e.
    - cbn. tauto.
    - rewrite IH, in_app_iff. cbn [In]. split; [tauto|]. intros [[H1|[->|[]]] H2]; tauto.
    - specialize (IH e). rewrite !concat_app in *. cbn [concat] in *. rewrite !in_app_iff in *. cbn [In]. split; [intros [K|[[K|[->|[]]]|K]]; tauto|]. intros [[H1|[->|[]]] H2]; tauto.
    - specialize (IH e). rewrite !concat_app. cbn [concat]. rewrite !in_app_iff. cbn [In]. split; [intros [K|[[->|[]]|[]]]; tauto|]. intros [[H1|[->|[]]] H2]; tauto.
  Qed.
  Lemma concat_perm {A} (l l' : list (list A)) : Permutation l l' -> Permutation (concat l) (concat l').
  Proof.
    intros P. induction P as [|x u v H IH|x z u|u v w H IH H' IH']; cbn [concat]; [reflexivity|apply Permutation_app_head, IH| |etransitivity; eassumption].
    rewrite !app_assoc. apply Permutation_app_tail, Permutation_app_comm.
  Qed.
  Lemma merged_In blocks blocks' : clos_refl_trans _ (merged log p) blocks blocks' -> Permutation (concat blocks) (concat blocks').
  Proof.
    intros H. induction H as [x y [bl B D rest edge P _ _ _ _]|x|x y z H1 IH1 H2 IH2]; [|reflexivity|etransitivity; eassumption].
    rewrite (concat_perm _ _ P). cbn [concat]. rewrite concat_app. cbn [concat]. rewrite app_nil_r, (app_assoc B D). apply Permutation_app_comm.
  Qed.
  Lemma grouped_In blocks : grouped log p blocks -> forall c, In c (concat blocks) <-> clustered log p c.
  Proof.
    intros (order & start & P & J & M & _) c. assert (Hm := merged_In _ _ M). transitivity (In c (concat start)); [split; apply Permutation_in; [apply Permutation_sym, Hm|exact Hm]|].
    rewrite (joined_In _ _ J). split; [tauto|]. intros H. split; [|exact H]. apply (Permutation_in _ (Permutation_sym P)). apply H.
  Qed.

  Hypothesis R0 : (0 <= fp_ratio p)%Q.
  Lemma discover_proof fuel next next_set : length (shown_names log p) < fuel ->
    exists g next' blocks nodes, discover_graph_fuzzy ords log p fuel next next_set = Ok (g, next') /\ grouped log p blocks /\ NoDup (concat blocks) /\ (forall b, In b blocks -> b <> []) /\ fuzzy_graph log p blocks nodes g.
  Proof.
    intros Hf. unfold discover_graph_fuzzy. destruct (fuzzy_edges_proof ords (Os 0) log p R0 next) as (g & next' & ids & k & -> & B & St & K). cbn [bind].
    destruct (fuzzy_clusters_proof log p ids next' g k B St K (ords 0) (Os 0) ords Os fuel next_set Hf) as (cl & blocks & -> & I & Gr). cbn [bind].
    set (nodes := flat_map (fun n : N * option pystr => match snd n with Some c => [(fst n, Plain c)] | None => [] end) (fg_nodes g)).
    assert (Hn : forall i u, In (i, u) nodes <-> exists c, u = Plain c /\ idn ids i c).
    { intros i u. unfold nodes. rewrite in_flat_map. split.
      - intros ([i' o] & H1 & H2). cbn [fst snd] in H2. destruct o as [c|]; [|destruct H2]. destruct H2 as [H2|[]]. injection H2 as <- <-. exists c. split; [reflexivity|]. apply (ba_iff _ _ _ _ _ B), In_dget; [apply (ba_nodes _ _ _ _ _ B)|exact H1].
      - intros (c & -> & H). apply (ba_iff _ _ _ _ _ B) in H. apply dget_In in H. exists (i, Some c). split; [exact H|left; reflexivity]. }
    assert (Hk : map fst nodes = dkeys (fg_nodes g)).
    { assert (Hnm := ba_named _ _ _ _ _ B). assert (Nd := ba_nodes _ _ _ _ _ B). assert (G : forall i o, In (i, o) (fg_nodes g) -> exists c, o = Some c) by (intros i o H; apply (Hnm i o), In_dget; assumption).
      unfold nodes, dkeys. revert G. generalize (fg_nodes g). clear. induction d as [|[i o] d IH]; intros G; [reflexivity|]. cbn [flat_map map fst snd]. destruct (G i o (or_introl eq_refl)) as [c ->]. cbn [app map fst]. f_equal. apply IH. intros; eapply G; right; eassumption. }
    assert (Eb : forall a b x y, idn ids x a -> idn ids y b -> bundle log p [a] [b] (fedge g x y)).
    { intros a b x y Ha Hb. rewrite (es_edges _ _ _ _ _ St a b x y Ha Hb). assert (Kab := K a b (id_shown _ _ _ _ _ B a x Ha) (id_shown _ _ _ _ _ B b y Hb)). destruct (k a b).
      - exists [(a, b)]. split; [constructor; [intros []|constructor]|]. split; [|cbn; rewrite Nat.add_0_r; reflexivity]. intros a' b'. cbn [In]. split.
        + intros [E|[]]. injection E as <- <-. split; [auto|]. split; [auto|]. apply Kab. reflexivity.
        + intros ([->|[]] & [->|[]] & _). auto.
      - exists []. split; [constructor|]. split; [|reflexivity]. intros a' b'. cbn [In]. split; [intros []|]. intros ([<-|[]] & [<-|[]] & H). apply Kab in H. discriminate. }
    assert (Q : quot log p nodes g next').
    { split.
      - apply (es_tidy _ _ _ _ _ St).
      - apply (ba_nodes _ _ _ _ _ B).
      - rewrite Hk. apply (ba_nodes _ _ _ _ _ B).
      - intros i. rewrite Hk. reflexivity.
      - intros i. rewrite Hk. apply (ba_next _ _ _ _ _ B).
      - intros i u H. apply Hn in H. destruct H as (c & -> & H). exists c. split; [apply (ba_iff _ _ _ _ _ B), H|reflexivity].
      - intros i j H. rewrite Hk. apply (es_ends _ _ _ _ _ St i j H).
      - intros i u j v Hi Hj _. apply Hn in Hi, Hj. destruct Hi as (a & -> & Hi). destruct Hj as (b & -> & Hj). cbn [members]. apply Eb; assumption.
      - intros i u Hi. apply Hn in Hi. destruct Hi as (a & -> & Hi). apply Eb; assumption. }
    destruct (Forall2_perm _ _ (ords 0 20 _ (fc_sets cl)) _ (Os 0 20 _ _) (ci_sets _ _ _ I)) as (blocks' & Pb & F).
    assert (F' : Forall2 (Forall2 (fun x c => In (x, Plain c) nodes)) (map snd (ords 0 20 _ (fc_sets cl))) blocks').
    { clear -F Hn. induction F as [|[c s] b l bs H F IH]; cbn [map snd]; constructor; [|exact IH]. apply (Forall2_weaken _ _ _ _ H). intros x d Hx _. apply Hn. eauto. }
    assert (Nb' : NoDup (concat blocks')) by (apply (Permutation_NoDup (Permutation_sym (concat_perm _ _ Pb))), (ci_once _ _ _ I)).
    assert (Ns : NoDup (concat (map snd (ords 0 20 _ (fc_sets cl))))).
    { assert (Fc : Forall2 (idn ids) (concat (map snd (ords 0 20 _ (fc_sets cl)))) (concat blocks')).
      { clear -F. induction F as [|[c s] b l bs H F IH]; cbn [map snd concat]; [constructor|]. apply Forall2_app; assumption. }
      apply (blk_NoDup log p ids next' g B _ _ Fc Nb'). }
    destruct (merge_nodes_proof _ _ nodes 0 g next' Q Ns Nb' F') as (g' & next2 & nodes' & E & Q' & P').
    exists g', next2, blocks, nodes'. split; [exact E|]. split; [exact Gr|]. split; [apply (ci_once _ _ _ I)|]. split; [apply (ci_some _ _ _ I)|]. destruct Q' as [_ Qk Qo Qi _ Ql Qe Qg Qp].
    assert (Nn : NoDup (map snd nodes)).
    { assert (N1 : NoDup (map fst nodes)) by (rewrite Hk; apply (ba_nodes _ _ _ _ _ B)). clear -N1 Hn. revert N1. assert (G : forall i u, In (i, u) nodes -> exists c, u = Plain c /\ idn ids i c) by (intros i u H; apply Hn, H). clear Hn. revert G. induction nodes as [|[i u] nodes IH]; intros G N1; [constructor|].
      cbn [map fst snd] in *. inversion N1 as [|? ? H1 H2]; subst. constructor; [|apply IH; [intros; apply G; right; assumption|exact H2]]. intros K. apply in_map_iff in K. destruct K as ([j v] & Ev & K). cbn [snd] in Ev. subst v.
      destruct (G i u (or_introl eq_refl)) as (c & -> & Hc). destruct (G j (Plain c) (or_intror K)) as (c' & E & Hc'). injection E as <-. apply H1. unfold idn in *. rewrite Hc in Hc'. injection Hc' as <-. apply in_map_iff. exists (i, Plain c). auto. }
    split; [exact Qo| | |exact Ql|exact Qe|exact Qg|exact Qp].
    - exists (flat_map members (map snd (without (concat (map snd (ords 0 20 _ (fc_sets cl)))) nodes))). set (w := without (concat (map snd (ords 0 20 _ (fc_sets cl)))) nodes) in *.
      assert (Hw : forall i u, In (i, u) w -> exists c, u = Plain c /\ idn ids i c) by (intros i u H; apply Hn; apply without_In in H; apply H).
      assert (Hmap : map snd w = map Plain (flat_map members (map snd w))).
      { clear -Hw. clearbody w. induction w as [|[i u] w IH]; [reflexivity|]. destruct (Hw i u (or_introl eq_refl)) as (c & -> & _). cbn [map snd flat_map members app]. f_equal. apply IH. intros; apply Hw; right; assumption. }
      split; [|split].
      + apply (NoDup_map_inv Plain). rewrite <- Hmap. unfold w, without. generalize (concat (map snd (ords 0 20 _ (fc_sets cl)))). intros s0. clear -Nn. induction nodes as [|[i u] nodes IH]; [constructor|]. cbn [map snd] in Nn. inversion Nn as [|? ? H1 H2]; subst. cbn [filter]. destruct (negb _); [|auto]. cbn [map snd]. constructor; [|auto].
        intros K. apply H1. apply in_map_iff in K. destruct K as ([i' u'] & E & K). cbn [snd] in E. subst u'. apply filter_In in K. destruct K as [K _]. apply (in_map snd) in K. exact K.
      + assert (Fc : Forall2 (idn ids) (concat (map snd (ords 0 20 _ (fc_sets cl)))) (concat blocks')).
        { clear -F. induction F as [|[c s] b l bs H F IH]; cbn [map snd concat]; [constructor|]. apply Forall2_app; assumption. }
        assert (Hcc : forall x c, idn ids x c -> (In x (concat (map snd (ords 0 20 _ (fc_sets cl)))) <-> clustered log p c)).
        { intros x c Hx. rewrite (blk_In log p ids next' g B _ _ x c Fc Hx). rewrite <- (grouped_In blocks Gr c). split; apply Permutation_in; [apply concat_perm, Pb|apply Permutation_sym, concat_perm, Pb]. }
        intros c. rewrite in_flat_map. split.
        * intros (u & Hu & Hc). apply in_map_iff in Hu. destruct Hu as ([i u'] & Eu & Hu). cbn [snd] in Eu. subst u'. destruct (Hw i u Hu) as (c' & -> & Hi). destruct Hc as [<-|[]]. split; [apply (id_shown _ _ _ _ _ B c' i Hi)|].
          rewrite <- (Hcc i c' Hi). apply without_In in Hu. apply Hu.
        * intros [H1 H2]. destruct (shown_idn log p ids next' g B c H1) as (x & Hx). exists (Plain c). split; [|left; reflexivity]. apply in_map_iff. exists (x, Plain c). split; [reflexivity|]. apply without_In. split; [apply Hn; eauto|]. rewrite (Hcc x c Hx). exact H2.
      + rewrite P'. rewrite Hmap at 1. apply Permutation_app_head, Permutation_map, Pb.
    - apply NoDup_Permutation; [exact Qk|exact Qo|exact Qi].
  Qed.

  Lemma edges_graph_proof next : exists info g next', fuzzy_edges ords log p next = Ok (info, g, next') /\ edge_graph log p g.
  Proof.
    destruct (fuzzy_edges_proof ords (Os 0) log p R0 next) as (g & next' & ids & k & E & B & St & K). eexists _, g, next'. split; [exact E|]. split.
    - apply (ba_nodes _ _ _ _ _ B).
    - intros i o H. destruct (ba_named _ _ _ _ _ B i o H) as [c ->]. exists c. split; [reflexivity|]. apply (ba_iff _ _ _ _ _ B) in H. apply (id_shown _ _ _ _ _ B c i H).
    - intros c H. destruct (id_of _ _ _ _ _ B c H) as (i & Hi). exists i. apply (ba_iff _ _ _ _ _ B), Hi.
    - intros i j c Hi Hj. apply (ba_iff _ _ _ _ _ B) in Hi, Hj. congruence.
    - apply (es_ends _ _ _ _ _ St).
    - intros i j a b Hi Hj. apply (ba_iff _ _ _ _ _ B) in Hi, Hj. rewrite (es_edges _ _ _ _ _ St a b i j Hi Hj). assert (Kab := K a b (id_shown _ _ _ _ _ B a i Hi) (id_shown _ _ _ _ _ B b j Hj)).
      destruct (k a b); [split; [apply Kab; reflexivity|reflexivity]|]. intros H. apply Kab in H. discriminate.
  Qed.
  Lemma bundle_one a b e : bundle log p [a] [b] e -> match e with Some x => third_edge log p a b /\ x = Some (num (follows log a b)) | None => ~ third_edge log p a b end.
  Proof.
    intros (pairs & N1 & H & ->). destruct pairs as [|ab pairs].
    - intros K. destruct (proj2 (H a b)); cbn; auto.
    - assert (Hall : forall xy, In xy (ab :: pairs) -> xy = (a, b)). { intros [x y] Hx. apply H in Hx. destruct Hx as ([<-|[]] & [<-|[]] & _). reflexivity. }
      assert (E : ab = (a, b)) by (apply Hall; left; reflexivity). subst ab. split; [apply (H a b); left; reflexivity|]. destruct pairs as [|xy pairs]; [cbn; rewrite Nat.add_0_r; reflexivity|].
      exfalso. inversion N1 as [|? ? K _]; subst. apply K. rewrite (Hall xy) by (right; left; reflexivity). left. reflexivity.
  Qed.
  Lemma no_clusters_proof fuel next next_set : length (shown_names log p) < fuel -> (forall c, In c (shown_names log p) -> (fp_node p <= num (frequency log c))%Q) ->
    exists g next', discover_graph_fuzzy ords log p fuel next next_set = Ok (g, next') /\ edge_graph log p g.
  Proof.
    intros Hf Hc. destruct (discover_proof fuel next next_set Hf) as (g & next' & blocks & nodes & E & Gr & _ & Hs & [Z1 Z2 Z3 Z4 Z5 Z6 Z7]). exists g, next'. split; [exact E|].
    assert (Hno : forall c, ~ clustered log p c) by (intros c (H1 & H2 & _); specialize (Hc c H1); lra).
    assert (Eb : blocks = []). { destruct blocks as [|b blocks]; [reflexivity|]. exfalso. assert (Hb := Hs b (or_introl eq_refl)). destruct b as [|c b]; [congruence|]. apply (Hno c), (grouped_In _ Gr). left. reflexivity. }
    subst blocks. destruct Z2 as (free & F1 & F2 & F3). cbn [map] in F3. rewrite app_nil_r in F3.
    assert (Hpl : forall i u, In (i, u) nodes -> exists c, u = Plain c /\ In c (shown_names log p) /\ dget N.eq_dec (fg_nodes g) i = Some (Some c)).
    { intros i u H. assert (Hu : In u (map Plain free)) by (apply (Permutation_in _ F3); apply (in_map snd) in H; exact H). apply in_map_iff in Hu. destruct Hu as (c & <- & Hu). exists c. split; [reflexivity|]. split; [apply F2, Hu|]. destruct (Z4 i (Plain c) H) as (s & H1 & H2). cbn in H2. congruence. }
    assert (Hnd : forall i o, dget N.eq_dec (fg_nodes g) i = Some o -> exists c, o = Some c /\ In (i, Plain c) nodes /\ In c (shown_names log p)).
    { intros i o H. assert (Hi : In i (map fst nodes)) by (apply (Permutation_in _ Z3), (dget_Some_key N.eq_dec); eauto). apply in_map_iff in Hi. destruct Hi as ([i' u] & <- & Hi). cbn [fst] in *. destruct (Hpl i' u Hi) as (c & -> & H1 & H2). exists c. split; [congruence|auto]. }
    split.
    - apply (Permutation_NoDup (Permutation_sym Z3) Z1).
    - intros i o H. destruct (Hnd i o H) as (c & H1 & _ & H2). eauto.
    - intros c H. assert (Hfr : In (Plain c) (map snd nodes)) by (apply (Permutation_in _ (Permutation_sym F3)), in_map, F2; auto). apply in_map_iff in Hfr. destruct Hfr as ([i u] & Eu & Hi). cbn [snd] in Eu. subst u. destruct (Hpl i _ Hi) as (c' & Ec & _ & H1). injection Ec as <-. eauto.
    - intros i j c Hi Hj. destruct (Hnd i _ Hi) as (c1 & E1 & H1 & _). destruct (Hnd j _ Hj) as (c2 & E2 & H2 & _). injection E1 as <-. injection E2 as <-.
      assert (N2 : NoDup (map snd nodes)). { apply (Permutation_NoDup (Permutation_sym F3)). clear -F1. induction F1 as [|c free H F1 IH]; cbn [map]; constructor; [|exact IH]. intros K. apply in_map_iff in K. destruct K as (c' & Ec & K). injection Ec as ->. auto. }
      clear -N2 H1 H2. induction nodes as [|[k u] nodes IH]; [destruct H1|]. cbn [map snd] in N2. inversion N2 as [|? ? K N3]; subst. destruct H1 as [H1|H1], H2 as [H2|H2].
      + congruence.
      + exfalso. injection H1 as -> ->. apply K. apply (in_map snd) in H2. exact H2.
      + exfalso. injection H2 as -> ->. apply K. apply (in_map snd) in H1. exact H1.
      + auto.
    - intros i j H. destruct (Z5 i j H) as [H1 H2]. split; apply (Permutation_in _ (Permutation_sym Z3)); assumption.
    - intros i j a b Hi Hj. destruct (Hnd i _ Hi) as (a' & E1 & H1 & _). destruct (Hnd j _ Hj) as (b' & E2 & H2 & _). injection E1 as <-. injection E2 as <-. apply bundle_one.
      destruct (N.eq_dec i j) as [<-|Hij]; [|apply (Z6 i (Plain a) j (Plain b) H1 H2 Hij)].
      rewrite Hi in Hj. injection Hj as <-. apply (Z7 i (Plain a) H1).
  Qed.
  Lemma best_stays_proof a b : second_edge log p a b -> (fp_edge p <= 1)%Q -> exists c, third_edge log p c b /\ forall d, second_edge log p d b -> (useful log p d b <= useful log p c b)%Q.
  Proof.
    intros Hab He. assert (O1 : any_order (fun _ (A : Type) (l : list A) => l)) by (intros k A l; reflexivity).
    set (sb := fun c => often log p c b && keep log p (fun _ (A : Type) (l : list A) => l) (shown_names log p) c b).
    assert (Hb := proj2 (second_shown log p a b Hab)).
    assert (Hsb : forall c, In c (filter sb (shown_names log p)) <-> second_edge log p c b).
    { intros c. rewrite filter_In. split.
      - intros [H1 H2]. apply (keep_second log p _ O1 (shown_names log p) (Permutation_refl _) c b H1 Hb), H2.
      - intros H. assert (H1 := proj1 (second_shown log p c b H)). split; [exact H1|]. apply (keep_second log p _ O1 (shown_names log p) (Permutation_refl _) c b H1 Hb), H. }
    assert (Hval : exists x l, map (fun c => useful log p c b) (filter sb (shown_names log p)) = x :: l).
    { apply Hsb in Hab. destruct (filter sb (shown_names log p)) as [|c l]; [destruct Hab|]. cbn [map]. eauto. }
    destruct Hval as (x & l & Ev). destruct (min_fold l x) as [M1 M2]. destruct (max_fold l x) as [M3 M4]. cbn zeta in *. rewrite <- Ev in *.
    apply in_map_iff in M1, M3. destruct M1 as (lo & El & Hlo). destruct M3 as (hi & Eh & Hhi). rewrite <- El in M2. rewrite <- Eh in M4.
    assert (Hall : forall c, second_edge log p c b -> (useful log p lo b <= useful log p c b)%Q /\ (useful log p c b <= useful log p hi b)%Q).
    { intros c Hc. apply Hsb in Hc. apply (in_map (fun c => useful log p c b)) in Hc. split; [apply M2, Hc|apply M4, Hc]. }
    exists hi. apply Hsb in Hlo, Hhi. split; [|intros d Hd; apply Hall, Hd]. split; [exact Hhi|]. exists lo, hi. split; [exact Hlo|]. split; [exact Hhi|]. split; [exact Hall|].
    destruct (Qlt_le_dec (useful log p lo b) (useful log p hi b)) as [L|L].
    - right. split; [exact L|]. unfold Qdiv. rewrite Qmult_inv_r; [exact He|]. lra.
    - left. split; [|exact He]. destruct (Hall lo Hlo) as [_ L2]. lra.
  Qed.
  Lemma blocks_proof blocks : grouped log p blocks -> NoDup (concat blocks) /\ (forall b, In b blocks -> b <> []) /\ forall c, In c (concat blocks) <-> clustered log p c.
  Proof.
    intros Gr. split; [|split; [|apply (grouped_In blocks Gr)]].
    - destruct Gr as (order & start & P & J & M & _). apply (Permutation_NoDup (merged_In _ _ M)).
      assert (No : NoDup order) by (apply (Permutation_NoDup (Permutation_sym P)), shown_NoDup). clear -J No.
      induction J as [|c done blocks H IH Hc|c d done l b r H IH Hc Hp Hd|c d done blocks H IH Hc Hp Hd].
      + constructor.
      + apply IH. apply (NoDup_app_parts done [c] No).
      + destruct (NoDup_app_parts done [c] No) as (N1 & _ & N3). specialize (IH N1). apply (Permutation_NoDup (l := c :: concat (l ++ b :: r))).
        * rewrite !concat_app. cbn [concat]. rewrite <- !app_assoc. cbn [app]. rewrite !app_assoc. apply Permutation_cons_app. reflexivity.
        * constructor; [|exact IH]. intros K. apply (joined_sub log p _ _ H) in K. apply (N3 c K). left. reflexivity.
      + destruct (NoDup_app_parts done [c] No) as (N1 & _ & N3). specialize (IH N1). rewrite concat_app. cbn [concat app]. apply (Permutation_NoDup (l := c :: concat blocks)); [apply Permutation_cons_append|].
        constructor; [|exact IH]. intros K. apply (joined_sub log p _ _ H) in K. apply (N3 c K). left. reflexivity.
    - destruct Gr as (order & start & _ & J & M & _).
      assert (Hs : forall b, In b start -> b <> []).
      { clear -J. induction J as [|c done blocks H IH Hc|c d done l b r H IH Hc Hp Hd|c d done blocks H IH Hc Hp Hd]; intros e He.
        - destruct He.
        - auto.
        - apply in_app_or in He. destruct He as [He|[<-|He]]; [apply IH, in_or_app; auto| |apply IH, in_or_app; right; right; exact He]. intros K. apply app_eq_nil in K. destruct K; discriminate.
        - apply in_app_or in He. destruct He as [He|[<-|[]]]; [auto|discriminate]. }
      clear J. induction M as [x y [bl B D rest edge P _ _ _ _]|x|x y z H1 IH1 H2 IH2]; auto.
      intros b Hb. apply in_app_or in Hb. destruct Hb as [Hb|[<-|[]]].
      + apply Hs. apply (Permutation_in _ (Permutation_sym P)). right. right. exact Hb.
      + intros K. apply app_eq_nil in K. destruct K as [K _]. apply (Hs B); [apply (Permutation_in _ (Permutation_sym P)); left; reflexivity|exact K].
  Qed.
End Whole.

(** * Statements of the properties *)
Lemma same_edges_proof log p g g' : edge_graph log p g -> edge_graph log p g' -> forall i j i' j' a b,
  dget N.eq_dec (fg_nodes g) i = Some (Some a) -> dget N.eq_dec (fg_nodes g) j = Some (Some b) ->
  dget N.eq_dec (fg_nodes g') i' = Some (Some a) -> dget N.eq_dec (fg_nodes g') j' = Some (Some b) -> fedge g i j = fedge g' i' j'.
Proof.
  intros E E' i j i' j' a b H1 H2 H3 H4. assert (A := eg_edges _ _ _ E i j a b H1 H2). assert (B := eg_edges _ _ _ E' i' j' a b H3 H4).
  destruct (fedge g i j), (fedge g' i' j'); [destruct A as [_ ->], B as [_ ->]; reflexivity|destruct A; contradiction|destruct B; contradiction|reflexivity].
Qed.
Lemma none_stays_proof log p a b : (1 < fp_edge p)%Q -> ~ third_edge log p a b.
Proof.
  intros H (S & lo & hi & _ & _ & B & [[_ K]|[L K]]); [lra|]. assert (Ba := B a S). 
  assert (D : ((useful log p a b - useful log p lo b) / (useful log p hi b - useful log p lo b) <= 1)%Q) by (apply Qle_shift_div_r; lra). lra.
Qed.
Lemma self_proof log p a : (0 <= fp_ratio p)%Q -> (second_edge log p a a <-> first_edge log p a a /\ ~ weak log p a a).
Proof.
  intros R. split.
  - intros [F C]. split; [exact F|]. intros W. destruct C as (u & v & (_ & _ & Eu) & (_ & _ & Ev) & H); [split; [exact F|split; [exact F|left; exact W]]|]. rewrite Eu, Ev in H. lra.
  - intros [F W]. split; [exact F|]. intros (_ & _ & [K|K]); contradiction.
Qed.

(** Edges can be computed. *)
Definition named (g : fgraph) (c : pystr) (x : N * option pystr) : bool := match snd x with Some s => str_eqb s c | None => false end.
Definition third_b (log : flog) (p : fparams) (a b : pystr) : bool :=
  match fuzzy_edges (fun _ _ _ l => l) log p 0 with
  | Ok (_, g, _) => existsb (fun i => named g a i && existsb (fun j => named g b j && match fedge g (fst i) (fst j) with Some _ => true | None => false end) (fg_nodes g)) (fg_nodes g)
  | Err _ => false
  end.
Lemma third_b_ok log p a b : (0 <= fp_ratio p)%Q -> third_b log p a b = true <-> third_edge log p a b.
Proof.
  intros R. unfold third_b. assert (Os : forall i : nat, any_order ((fun _ _ _ l => l) i : nat -> forall A, list A -> list A)) by (intros i k A l; reflexivity).
  destruct (edges_graph_proof (fun _ _ _ l => l) Os log p R 0%N) as (info & g & n & -> & [E1 E2 E3 E4 E5 E6]). rewrite existsb_exists. split.
  - intros ([i u] & Hi & H). apply andb_prop in H. destruct H as [N1 H]. apply existsb_exists in H. destruct H as ([j v] & Hj & H). apply andb_prop in H. destruct H as [N2 H].
    unfold named in N1, N2. cbn [snd fst] in *. destruct u as [u|]; [|discriminate]. destruct v as [v|]; [|discriminate]. apply str_eqb_eq in N1, N2. subst u v.
    assert (K := E6 i j a b (In_dget N.eq_dec _ _ _ E1 Hi) (In_dget N.eq_dec _ _ _ E1 Hj)). destruct (fedge g i j); [apply K|discriminate].
  - intros H. destruct (second_shown log p a b (proj1 H)) as [Sa Sb]. destruct (E3 a Sa) as [i Hi]. destruct (E3 b Sb) as [j Hj].
    assert (K := E6 i j a b Hi Hj). exists (i, Some a). split; [apply (dget_In N.eq_dec), Hi|]. unfold named at 1. cbn [snd fst]. rewrite str_eqb_refl. cbn [andb]. apply existsb_exists. exists (j, Some b). split; [apply (dget_In N.eq_dec), Hj|].
    unfold named. cbn [snd fst]. rewrite str_eqb_refl. destruct (fedge g i j); [reflexivity|contradiction].
Qed.
Lemma connected_refuted_proof : ~ (forall log p c, clustered log p c -> exists d, third_edge log p c d \/ third_edge log p d c).
Proof.
  intros H. set (log := [[(str "a", 0); (str "a", 1); (str "a", 2)]; [(str "b", 0)]]%Z). set (p := mkFParams 0 0 0 0 1 0 3). assert (R : (0 <= fp_ratio p)%Q) by (cbn; lra).
  destruct (H log p (str "b")) as [d [K|K]].
  - split; [vm_compute; auto|]. split; [vm_compute; reflexivity|]. exists (str "a"). split; [vm_compute; discriminate|]. right. apply third_b_ok; [exact R|vm_compute; reflexivity].
  - assert (S := proj2 (second_shown log p _ _ (proj1 K))). apply (third_b_ok log p _ _ R) in K. vm_compute in S. destruct S as [<-|[<-|[]]]; vm_compute in K; discriminate.
  - assert (S := proj1 (second_shown log p _ _ (proj1 K))). apply (third_b_ok log p _ _ R) in K. vm_compute in S. destruct S as [<-|[<-|[]]]; vm_compute in K; discriminate.
Qed.
Lemma incoming_refuted_proof : ~ (forall log p c d, In c (shown_names log p) -> (num (frequency log c) < fp_node p)%Q -> d <> c -> third_edge log p d c -> clustered log p c).
Proof.
  intros H. set (log := [[(str "a", 0); (str "b", 1)]; [(str "a", 0)]; [(str "a", 0)]]%Z). set (p := mkFParams 0 0 0 0 1 0 3). assert (R : (0 <= fp_ratio p)%Q) by (cbn; lra).
  destruct (H log p (str "b") (str "a")) as (_ & _ & e & N1 & K).
  - vm_compute; auto.
  - vm_compute. reflexivity.
  - vm_compute. discriminate.
  - apply third_b_ok; [exact R|vm_compute; reflexivity].
  - destruct K as [K|K]; assert (S := proj2 (second_shown log p _ _ (proj1 K))); apply (third_b_ok log p _ _ R) in K; vm_compute in S; destruct S as [<-|[<-|[]]]; vm_compute in K; discriminate.
Qed.
Lemma two_members_refuted_proof : ~ (forall log p blocks, grouped log p blocks -> forall b, In b blocks -> 2 <= length b).
Proof.
  intros H. set (log := [[(str "a", 0); (str "a", 0); (str "b", 1)]; [(str "b", 0)]; [(str "b", 0)]]%Z). set (p := mkFParams 0 0 0 0 1 0 3). assert (R : (0 <= fp_ratio p)%Q) by (cbn; lra).
  assert (Os : forall i : nat, any_order ((fun _ _ _ l => l) i : nat -> forall A, list A -> list A)) by (intros i k A l; reflexivity).
  destruct (discover_proof (fun _ _ _ l => l) Os log p R 10 0%N 0%N) as (g & n & blocks & nodes & _ & G & _); [vm_compute; repeat constructor|].
  destruct (blocks_proof log p blocks G) as (N1 & _ & M). assert (Ca : clustered log p (str "a")).
  { split; [vm_compute; auto|]. split; [vm_compute; reflexivity|]. exists (str "b"). split; [vm_compute; discriminate|]. left. apply third_b_ok; [exact R|vm_compute; reflexivity]. }
  assert (Only : forall c, clustered log p c -> c = str "a"). { intros c (S & F & _). vm_compute in S. destruct S as [<-|[<-|[]]]; [reflexivity|]. exfalso. vm_compute in F. discriminate. }
  apply M in Ca. apply in_concat in Ca. destruct Ca as (b & Hb & Ha). specialize (H log p blocks G b Hb).
  assert (Nb : NoDup b). { apply in_split in Hb. destruct Hb as (l & r & ->). rewrite concat_app in N1. cbn [concat] in N1. apply NoDup_app_parts in N1. destruct N1 as (_ & N1 & _). apply NoDup_app_parts in N1. apply N1. }
  assert (Hall : forall c, In c b -> c = str "a") by (intros c Hc; apply Only, M, in_concat; eauto).
  destruct b as [|x [|y b]]; [destruct Ha|cbn in H; lia|]. inversion Nb as [|? ? K _]; subst. apply K. rewrite (Hall x), (Hall y) by (cbn; auto). left. reflexivity.
Qed.
