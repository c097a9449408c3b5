(** Proofs about the heuristic miner: the whole net. *)
From Coq Require Import Permutation Sorted QArith.
From Verif Require Import Py PyFacts InfoModel InfoSpec InfoProofs HashModel EqProofs ReplayModel ReplaySpec ReplayProofs HMutProofs RInfoModel RInfoSpec RInfoProofs AlphaModel AlphaSpec AlphaProofs AlphaProofs2 AlphaProofs3 AlphaProofs4 PlusProofs HeurModel HeurSpec HeurProofs1 HeurProofs2 HeurProofs3.
Open Scope nat_scope.

Definition right_block (log : list (list pystr)) (p : hparams) (b : iblock) : Prop :=
  NoDup (map hg_names (hb_groups (fst b))) /\ (forall G, In G (map hg_names (hb_groups (fst b))) <-> bsorted G /\ top_group log p (hb_class (fst b)) G) /\
  NoDup (snd b) /\ forall d, In d (snd b) <-> depends log p (hb_class (fst b)) d /\ forall g, In g (hb_groups (fst b)) -> ~ In d (hg_names g).

Section Build.
  Variable ords : nat -> nat -> forall A : Type, list A -> list A.
  Hypothesis O : forall i, any_order (ords i).
  Variable log : list (list pystr).
  Variable p : hparams.
  Variable ids : dict pystr N.
  Hypothesis Hids : forall c, class_of log c -> dget str_eq_dec ids c <> None.
  Variable dep : pystr -> pystr -> bool.
  Variable rel : pystr -> pystr -> pystr -> bool.
  Hypothesis Hdep : forall a b, dep a b = true <-> depends log p a b.
  Hypothesis Hrel : forall a b c, rel a b c = true <-> together log p a b c.
  Hypothesis Hsym : forall a b c, rel a b c = rel a c b.
  Variable classes : list pystr.
  Hypothesis Hnd : NoDup classes.
  Hypothesis Hcl : forall c, In c classes <-> class_of log c.

  Lemma followers_In a b : In b (filter (dep a) classes) <-> depends log p a b.
  Proof. rewrite filter_In, Hdep, Hcl. split; [intros [_ H]; exact H|]. intros H. split; [apply H|exact H]. Qed.
  Lemma good_group_iff a G : good_group (rel a) (filter (dep a) classes) G <-> bsorted G /\ group log p a G.
  Proof.
    unfold good_group, group, clique. split.
    - intros (H1 & H2 & H3 & H4). split; [exact H1|]. split; [intros b Hb; apply followers_In, H2, Hb|]. split; [intros b c Hb Hc Hne; apply Hrel, H3; assumption|].
      pose proof (bsorted_NoDup _ H1) as ND. destruct G as [|b [|c G]]; cbn [length] in H4; try lia. exists b, c. split; [left; reflexivity|]. split; [right; left; reflexivity|]. inversion ND as [|? ? Hn]; subst. intros ->. apply Hn. left. reflexivity.
    - intros (H1 & H2 & H3 & b & c & Hb & Hc & Hne). split; [exact H1|]. split; [intros d Hd; apply followers_In, H2, Hd|]. split; [intros d e Hd He Hde; apply Hrel, H3; assumption|].
      apply (NoDup_incl_length (l := [b; c])); [constructor; [cbn; intuition congruence|constructor; [intros []|constructor]]|]. intros d [<-|[<-|[]]]; assumption.
  Qed.
  Lemma group_ext a G G' : (forall c, In c G <-> In c G') -> group log p a G -> group log p a G'.
  Proof. intros E (H1 & H2 & b & c & Hb & Hc & Hne). split; [intros d Hd; apply H1, E, Hd|]. split; [intros d e Hd He; apply H2; apply E; assumption|]. exists b, c. rewrite <- !E. auto. Qed.
  Lemma top_iff a G : top (rel a) (filter (dep a) classes) G <-> bsorted G /\ top_group log p a G.
  Proof.
    unfold top, top_group. rewrite good_group_iff. split.
    - intros [[H1 H2] H3]. split; [exact H1|]. split; [exact H2|]. intros G' H4 I.
      assert (E : bset_of G' = G). { apply H3; [apply good_group_iff; split; [apply bset_of_sorted|apply (group_ext a G'); [intros c; symmetry; apply bset_of_In|exact H4]]|]. intros c Hc. apply bset_of_In, I, Hc. }
      intros c Hc. rewrite <- E. apply bset_of_In, Hc.
    - intros [H1 [H2 H3]]. split; [auto|]. intros y Hy I. apply good_group_iff in Hy. apply bsorted_ext; [apply Hy|exact H1|]. intros c. split; [apply (H3 y (proj2 Hy) I)|apply I].
  Qed.
  Lemma add_class_proof c i net next blocks : built ids net next blocks -> class_of log c ->
    ((forall b, ~ depends log p c b) /\ forall fuel, add_class ords fuel ids dep rel classes (net, next) i c = Ok (net, next)) \/
    exists fuel0 net' next' b, hb_class (fst b) = c /\ (exists d, depends log p c d) /\ right_block log p b /\ built ids net' next' (blocks ++ [b]) /\
      forall fuel, fuel0 <= fuel -> add_class ords fuel ids dep rel classes (net, next) i c = Ok (net', next').
  Proof.
    intros B Hc. unfold add_class. pose proof (followers_In c) as FI. pose proof (groups_proof (rel c) (Hsym c) (filter (dep c) classes) (ords (S i)) (O (S i)) 100) as GP.
    pose proof (top_iff c) as TI. assert (NDf : NoDup (filter (dep c) classes)) by (apply NoDup_filter, Hnd). set (fs := filter (dep c) classes) in *. destruct fs as [|f0 fs0] eqn:Ef.
    - left. split; [|reflexivity]. intros b Hb. apply FI in Hb. destruct Hb.
    - rewrite <- Ef in *. assert (Hex : exists d, depends log p c d) by (exists f0; apply FI; rewrite Ef; left; reflexivity). clear Ef. right.
      destruct GP as (fuel0 & r & E & NDr & Hr). exists fuel0.
      destruct (dget str_eq_dec ids c) as [t|] eqn:Et; [|exfalso; apply (Hids c Hc Et)].
      destruct (start_block ids net next blocks c t B Et) as (n1 & E1 & n2 & x2 & E2 & B2).
      assert (Pr : Permutation (ords (S i) 10 _ r) r) by apply O.
      destruct (groups_loop ids blocks c next (ords (S i) 10 _ r)) with (net := n2) (next := x2) (groups := @nil hgroup) as (n3 & x3 & more & E3 & Em & B3); [|exact B2|].
      { intros G x HG Hx. apply Hids. apply (Permutation_in _ Pr) in HG. apply Hr, TI in HG. destruct HG as [_ [[HG _] _]]. apply (HG x Hx). }
      cbn [app] in B3.
      destruct (directs_loop ids blocks (mkHBlock c next more) (filter (fun f => negb (str_mem f (concat r))) fs)) with (net := n3) (next := x3) (direct := @nil pystr) as (n4 & x4 & E4 & B4); [|exact B3|].
      { intros x Hx. apply filter_In in Hx. destruct Hx as [Hx _]. apply FI in Hx. apply Hids. apply Hx. }
      cbn [app hb_post] in B4, E4. exists n4, x4, (mkHBlock c next more, filter (fun f => negb (str_mem f (concat r))) fs).
      split; [reflexivity|]. split; [exact Hex|]. split; [|split; [exact B4|]].
      + unfold right_block. cbn [fst snd hb_groups hb_class]. rewrite Em. split; [apply (Permutation_NoDup (Permutation_sym Pr) NDr)|]. split.
        * intros G. rewrite <- TI, <- Hr. split; apply Permutation_in; [exact Pr|symmetry; exact Pr].
        * split; [apply NoDup_filter, NDf|]. intros d. rewrite filter_In, negb_true_iff, FI. apply and_iff_compat_l.
          assert (K : str_mem d (concat r) = false <-> ~ In d (concat r)). { rewrite <- str_mem_In. destruct (str_mem d (concat r)); intuition congruence. }
          rewrite K, in_concat. split.
          -- intros H g Hg Hd. apply H. exists (hg_names g). split; [|exact Hd]. apply (Permutation_in _ Pr). rewrite <- Em. apply in_map, Hg.
          -- intros H (G & HG & Hd). apply (Permutation_in _ (Permutation_sym Pr)) in HG. rewrite <- Em in HG. apply in_map_iff in HG. destruct HG as (g & <- & Hg). apply (H g Hg Hd).
      + intros fuel Hf. cbn beta. rewrite (E fuel Hf). cbn [bind]. rewrite E1. unfold class_id at 1. rewrite Et. cbn [bind]. rewrite E2. cbn [bind]. rewrite E3. cbn [bind]. exact E4.
  Qed.
  Lemma add_classes_proof todo : (forall c, In c todo -> class_of log c) -> NoDup todo -> forall i net next blocks, built ids net next blocks ->
    exists fuel0 net' next' more, (forall fuel, fuel0 <= fuel -> add_classes ords fuel ids dep rel classes todo i (net, next) = Ok (net', next')) /\
      built ids net' next' (blocks ++ more) /\ Forall (right_block log p) more /\ NoDup (map (fun b => hb_class (fst b)) more) /\
      forall a, In a (map (fun b => hb_class (fst b)) more) <-> In a todo /\ exists b, depends log p a b.
  Proof.
    induction todo as [|c todo IH]; intros Ht ND i net next blocks B.
    - exists 0, net, next, []. rewrite app_nil_r. split; [reflexivity|]. split; [exact B|]. split; [constructor|]. split; [constructor|]. intros a. cbn [map In]. tauto.
    - inversion ND as [|? ? Hn ND']; subst. assert (Ht' : forall d, In d todo -> class_of log d) by (intros d Hd; apply Ht; right; exact Hd). cbn [add_classes].
      destruct (add_class_proof c i net next blocks B (Ht c (or_introl eq_refl))) as [[H1 H2]|(f1 & n1 & x1 & b & H1 & H2 & H3 & H4 & H5)].
      + destruct (IH Ht' ND' (S i) net next blocks B) as (f2 & n2 & x2 & more & E & B2 & R & M1 & M2). exists f2, n2, x2, more. split; [intros fuel Hf; rewrite H2; cbn [bind]; apply E, Hf|]. split; [exact B2|]. split; [exact R|]. split; [exact M1|].
        intros a. rewrite M2. cbn [In]. split; [tauto|]. intros [[<-|Ha] [d Hd]]; [exfalso; apply (H1 d Hd)|]. split; [exact Ha|exists d; exact Hd].
      + destruct (IH Ht' ND' (S i) n1 x1 _ H4) as (f2 & n2 & x2 & more & E & B2 & R & M1 & M2). exists (Nat.max f1 f2), n2, x2, (b :: more). rewrite <- app_assoc in B2. cbn [app] in B2.
        split; [intros fuel Hf; rewrite H5 by lia; cbn [bind]; apply E; lia|]. split; [exact B2|]. split; [constructor; assumption|]. cbn [map]. split.
        * constructor; [|exact M1]. intros X. apply M2 in X. rewrite H1 in X. destruct X as [X _]. contradiction.
        * intros a. cbn [In]. rewrite M2. rewrite H1. split; [intros [<-|[H6 H7]]; [split; [left; reflexivity|exact H2]|split; [right; exact H6|exact H7]]|]. intros [[<-|Ha] He]; [left; reflexivity|right; split; assumption].
  Qed.
End Build.

(** ** The transitions before arcs for names which alternate are added *)
Definition base_of (log : list (list pystr)) (p : hparams) (blocks : list iblock) (loud silent : list ptrans) (net : pnet) (next : N) : Prop :=
  blocks_of log p (map fst blocks) /\ loud_of log p (map fst blocks) loud /\ fresh net next /\ n_places net = flat_map hb_places (map fst blocks) /\
  n_initial net = None /\ n_final net = None /\ n_trans net = loud ++ silent /\ map view silent = flat_map hb_silent (map fst blocks).
Lemma flat_map_map {A B C} (f : A -> B) (g : B -> list C) l : flat_map g (map f l) = flat_map (fun x => g (f x)) l.
Proof. induction l; cbn; congruence. Qed.
Lemma NoDup_flat_map {A B} (f : A -> list B) l : (forall x, In x l -> NoDup (f x)) -> NoDup l -> (forall x y z, In x l -> In y l -> In z (f x) -> In z (f y) -> x = y) -> NoDup (flat_map f l).
Proof.
  induction l as [|x l IH]; intros H ND K; [constructor|]. inversion ND as [|? ? Hn ND']; subst. cbn [flat_map].
  assert (H1 : NoDup (f x)) by (apply H; left; reflexivity). assert (H2 : NoDup (flat_map f l)) by (apply IH; [intros y Hy; apply H; right; exact Hy|exact ND'|intros a b z Ha Hb; apply K; right; assumption]).
  assert (H3 : forall z, In z (f x) -> ~ In z (flat_map f l)). { intros z Hz Hz'. apply in_flat_map in Hz'. destruct Hz' as (y & Hy & Hzy). assert (x = y) by (eapply K; eauto using in_eq, in_cons). subst y. contradiction. }
  clear - H1 H2 H3. induction (f x) as [|z m IHm]; [exact H2|]. cbn [app]. inversion H1 as [|? ? Hn H1']; subst. constructor.
  - rewrite in_app_iff. intros [X|X]; [contradiction|]. apply (H3 z (or_introl eq_refl) X).
  - apply IHm; [exact H1'|]. intros u Hu. apply H3. right. exact Hu.
Qed.
Lemma NoDup_app_r {A} (l l' : list A) : NoDup (l ++ l') -> NoDup l'.
Proof. induction l as [|x l IH]; cbn [app]; intros H; [exact H|]. inversion H; subst. auto. Qed.
Lemma places_once blocks : NoDup (dkeys (flat_map hb_places blocks)) -> forall b, In b blocks -> NoDup (map fst (hb_places b)).
Proof.
  induction blocks as [|c blocks IH]; intros ND b Hb; [destruct Hb|]. cbn [flat_map] in ND. unfold dkeys in ND. rewrite map_app in ND.
  destruct Hb as [->|Hb]; [eapply NoDup_app_l; exact ND|]. apply IH; [|exact Hb]. eapply NoDup_app_r. exact ND.
Qed.
Lemma places_apart blocks : NoDup (dkeys (flat_map hb_places blocks)) -> forall b c z, In b blocks -> In c blocks -> In z (map fst (hb_places b)) -> In z (map fst (hb_places c)) -> b = c.
Proof.
  induction blocks as [|d blocks IH]; intros ND b c z Hb Hc Hzb Hzc; [destruct Hb|]. cbn [flat_map] in ND. unfold dkeys in ND. rewrite map_app in ND.
  assert (K : forall e, In e blocks -> In z (map fst (hb_places e)) -> In z (map fst (flat_map hb_places blocks))).
  { intros e He Hz. apply in_map_iff in Hz. destruct Hz as (v & Ev & Hv). apply in_map_iff. exists v. split; [exact Ev|]. apply in_flat_map. exists e. auto. }
  destruct Hb as [->|Hb], Hc as [->|Hc]; [reflexivity| | |].
  - exfalso. eapply NoDup_app_not; [exact ND|exact Hzb|]. eapply K; eauto.
  - exfalso. eapply NoDup_app_not; [exact ND|exact Hzc|]. eapply K; eauto.
  - eapply IH; eauto. eapply NoDup_app_r. exact ND.
Qed.
Lemma block_ins_at c b place : In place (block_ins c b) -> In place (map fst (hb_places (fst b))).
Proof.
  unfold block_ins, hb_places. rewrite in_app_iff, in_flat_map. cbn [map fst]. intros [(g & Hg & H)|H].
  - right. apply in_map_iff in H. destruct H as (cp & <- & H). apply filter_In in H. destruct H as [H _]. rewrite flat_map_concat_map, concat_map, map_map. apply in_concat. eexists. split; [apply in_map_iff; exists g; split; [reflexivity|exact Hg]|].
    rewrite map_map. cbn [fst]. apply in_map, H.
  - left. apply in_map_iff in H. destruct H as (x & H & _). exact H.
Qed.
Lemma pairs_apart g gs : NoDup (map fst (flat_map (fun g => map (fun cp => (snd cp, str "pre_" ++ fst cp)) (hg_places g)) (g :: gs))) -> NoDup (map snd (hg_places g)) /\
  NoDup (map fst (flat_map (fun g => map (fun cp => (snd cp, str "pre_" ++ fst cp)) (hg_places g)) gs)) /\
  forall z, In z (map snd (hg_places g)) -> ~ In z (map fst (flat_map (fun g => map (fun cp => (snd cp, str "pre_" ++ fst cp)) (hg_places g)) gs)).
Proof.
  cbn [flat_map]. rewrite map_app, map_map. cbn [fst]. intros ND. split; [eapply NoDup_app_l; exact ND|]. split; [eapply NoDup_app_r; exact ND|]. intros z Hz. eapply NoDup_app_not; eauto.
Qed.
Lemma NoDup_map_filter {A B} (f : A -> B) q l : NoDup (map f l) -> NoDup (map f (filter q l)).
Proof.
  induction l as [|x l IH]; cbn [map filter]; intros ND; [constructor|]. inversion ND as [|? ? Hn ND']; subst. destruct (q x); [|auto]. cbn [map]. constructor; [|auto].
  intros H. apply Hn. apply in_map_iff in H. destruct H as (y & E & Hy). apply filter_In in Hy. rewrite <- E. apply in_map, Hy.
Qed.
Lemma NoDup_both {A} (l l' : list A) : NoDup l -> NoDup l' -> (forall z, In z l -> ~ In z l') -> NoDup (l ++ l').
Proof.
  induction l as [|x l IH]; intros H1 H2 H3; [exact H2|]. inversion H1; subst. cbn [app]. constructor.
  - rewrite in_app_iff. intros [X|X]; [contradiction|]. apply (H3 x (or_introl eq_refl) X).
  - apply IH; auto. intros z Hz. apply H3. right. exact Hz.
Qed.
Lemma block_ins_once c b : NoDup (map fst (hb_places (fst b))) -> NoDup (snd b) -> NoDup (block_ins c b).
Proof.
  intros ND ND2. unfold block_ins, hb_places in *. cbn [map fst] in ND. inversion ND as [|? ? Hn ND']; subst. apply NoDup_both.
  - clear Hn ND. induction (hb_groups (fst b)) as [|g gs IH]; [constructor|]. apply pairs_apart in ND'. destruct ND' as (H1 & H2 & H3). cbn [flat_map]. apply NoDup_both; [apply NoDup_map_filter, H1|apply IH, H2|].
    intros z Hz Hz'. apply (H3 z).
    + apply in_map_iff in Hz. destruct Hz as (x & <- & Hx). apply filter_In in Hx. apply in_map, Hx.
    + apply in_flat_map in Hz'. destruct Hz' as (g' & Hg & Hz'). apply in_map_iff in Hz'. destruct Hz' as (x & <- & Hx). apply filter_In in Hx. apply in_map_iff. exists (snd x, str "pre_" ++ fst x). split; [reflexivity|]. apply in_flat_map. exists g'. split; [exact Hg|]. apply in_map_iff. exists x. split; [reflexivity|apply Hx].
  - assert (L : length (filter (str_eqb c) (snd b)) <= 1).
    { clear - ND2. induction (snd b) as [|x l IH]; [cbn; lia|]. inversion ND2 as [|? ? Hn ND]; subst. cbn [filter]. destruct (str_eqb c x) eqn:E; [|auto]. apply str_eqb_eq in E. subst x. cbn [length].
      replace (filter (str_eqb c) l) with (@nil pystr); [cbn; lia|]. symmetry. clear IH ND ND2. induction l as [|y l IH]; [reflexivity|]. cbn [filter]. destruct (str_eqb c y) eqn:E; [apply str_eqb_eq in E; subst y; exfalso; apply Hn; left; reflexivity|]. apply IH. intros X. apply Hn. right. exact X. }
    destruct (filter (str_eqb c) (snd b)) as [|x [|y l]]; cbn [map length] in *; [constructor|constructor; [intros []|constructor]|lia].
  - intros z Hz Hz'. apply in_map_iff in Hz'. destruct Hz' as (x & <- & _). apply Hn. apply in_flat_map in Hz. destruct Hz as (g & Hg & Hz). apply in_map_iff in Hz. destruct Hz as (y & Ey & Hy). apply filter_In in Hy.
    apply in_map_iff. exists (snd y, str "pre_" ++ fst y). split; [exact Ey|]. apply in_flat_map. exists g. split; [exact Hg|]. apply in_map_iff. exists y. split; [reflexivity|apply Hy].
Qed.
Lemma block_ins_In log p c b place : right_block log p b -> In place (block_ins c b) <->
  (place = hb_post (fst b) /\ depends log p (hb_class (fst b)) c /\ forall g, In g (hb_groups (fst b)) -> ~ In c (hg_names g)) \/ exists g, In g (hb_groups (fst b)) /\ In (c, place) (hg_places g).
Proof.
  intros (_ & _ & _ & R). unfold block_ins. rewrite in_app_iff, in_flat_map. split.
  - intros [(g & Hg & H)|H].
    + right. exists g. split; [exact Hg|]. apply in_map_iff in H. destruct H as ([d pl] & <- & H). apply filter_In in H. destruct H as [H E]. cbn [fst snd] in *. apply str_eqb_eq in E. subst d. exact H.
    + left. apply in_map_iff in H. destruct H as (x & <- & H). apply filter_In in H. destruct H as [H E]. apply str_eqb_eq in E. subst x. split; [reflexivity|]. apply R, H.
  - intros [[-> H]|(g & Hg & H)].
    + right. apply in_map_iff. exists c. split; [reflexivity|]. apply filter_In. split; [apply R, H|apply str_eqb_refl].
    + left. exists g. split; [exact Hg|]. apply in_map_iff. exists (c, place). split; [reflexivity|]. apply filter_In. split; [exact H|apply str_eqb_refl].
Qed.
Lemma base_proof log p ids net next blocks : built ids net next blocks -> (forall c, In c (dkeys ids) <-> class_of log c) ->
  Forall (right_block log p) blocks -> NoDup (map (fun b => hb_class (fst b)) blocks) -> (forall a, In a (map (fun b => hb_class (fst b)) blocks) <-> exists b, depends log p a b) ->
  exists loud silent, base_of log p blocks loud silent net next /\ map tr_name loud = dkeys ids.
Proof.
  intros [B1 B2 B3 B4 B5 B6] Hi R M1 M2. rewrite Forall_forall in R. apply map_eq_app in B6. destruct B6 as (loud & silent & E & E1 & E2). exists loud, silent.
  assert (Ep : n_places net = flat_map hb_places (map fst blocks)) by (rewrite B3, flat_map_map; reflexivity).
  assert (NDp : NoDup (dkeys (flat_map hb_places (map fst blocks)))). { rewrite <- Ep. destruct B1 as [B1 _]. unfold all_ids in B1. apply NoDup_app_r in B1. eapply NoDup_app_l. exact B1. }
  assert (Ev : forall t, In t loud -> exists i, view t = loud_view blocks (tr_name t, i)).
  { intros t Ht. assert (X : In (view t) (map (loud_view blocks) ids)) by (rewrite <- E1; apply in_map, Ht). apply in_map_iff in X. destruct X as ([c i] & X & _). exists i.
    assert (c = tr_name t) by (unfold view, loud_view in X; cbn [fst snd] in X; congruence). subst c. symmetry. exact X. }
  assert (En : map tr_name loud = dkeys ids).
  { assert (X : map (fun v => snd (fst (fst (fst v)))) (map view loud) = map (fun v => snd (fst (fst (fst v)))) (map (loud_view blocks) ids)) by congruence. rewrite !map_map in X. exact X. }
  split; [|exact En]. split; [|split; [|split; [exact B1|]]].
  - split.
    + rewrite map_map. exact M1.
    + intros a. rewrite map_map. apply M2.
    + intros b Hb. apply in_map_iff in Hb. destruct Hb as (ib & <- & Hb). specialize (R ib Hb). split; apply R.
  - split.
    + rewrite En. exact B2.
    + intros c. rewrite En. apply Hi.
    + intros t Ht. destruct (Ev t Ht) as (i & X). unfold view, loud_view in X. congruence.
    + intros t Ht. destruct (Ev t Ht) as (i & X). assert (Ei : ins t = flat_map (block_ins (tr_name t)) blocks) by (unfold view, loud_view in X; cbn [fst snd] in X; congruence). rewrite Ei. split.
      * apply NoDup_flat_map.
        -- intros b Hb. apply block_ins_once; [|apply (R b Hb)]. eapply places_once; [exact NDp|]. apply in_map, Hb.
        -- eapply NoDup_map_inv. exact M1.
        -- intros b c z Hb Hc Hzb Hzc. eapply once_inj; [exact M1|exact Hb|exact Hc|]. cbn beta. apply (f_equal hb_class). eapply places_apart; [exact NDp|apply in_map, Hb|apply in_map, Hc|eapply block_ins_at; exact Hzb|eapply block_ins_at; exact Hzc].
      * intros place. rewrite in_flat_map. unfold before. split.
        -- intros (b & Hb & H). exists (fst b). split; [apply in_map, Hb|]. apply (block_ins_In log p); [apply R, Hb|exact H].
        -- intros (b & Hb & H). apply in_map_iff in Hb. destruct Hb as (ib & <- & Hb). exists ib. split; [exact Hb|]. apply (block_ins_In log p); [apply R, Hb|exact H].
    + intros t Ht. destruct (Ev t Ht) as (i & X). assert (Ei : outs t = flat_map (block_outs (tr_name t)) blocks) by (unfold view, loud_view in X; cbn [fst snd] in X; congruence). rewrite Ei.
      clear. induction blocks as [|b l IH]; [reflexivity|]. cbn [flat_map map filter]. unfold block_outs at 1. destruct (str_eqb (hb_class (fst b)) (tr_name t)); cbn [map app]; rewrite IH; reflexivity.
  - split; [exact Ep|]. split; [exact B4|]. split; [exact B5|]. split; [exact E|]. rewrite E2, flat_map_map. reflexivity.
Qed.

(** ** Arcs for names which alternate *)
Definition more (out : bool) (l : list (N * N)) (v : tv) : tv :=
  let added := map snd (filter (fun c => N.eqb (fst c) (tv_id v)) l) in
  if out then (fst (fst v), snd (fst v), snd v ++ added) else (fst (fst v), snd (fst v) ++ added, snd v).
Lemma conns_proof out l : forall net next, fresh net next -> (forall c, In c l -> In (fst c) (map tr_id (n_trans net))) ->
  exists net' next', loopM (fun nn c => conn out nn (fst c) (snd c)) l (net, next) = Ok (net', next') /\ fresh net' next' /\ n_places net' = n_places net /\ n_initial net' = n_initial net /\ n_final net' = n_final net /\
    map view (n_trans net') = map (more out l) (map view (n_trans net)).
Proof.
  induction l as [|[i place] l IH]; intros net next F K.
  - exists net, next. split; [reflexivity|]. split; [exact F|]. repeat (split; [reflexivity|]). symmetry. rewrite <- (map_id (map view (n_trans net))) at 2. apply map_ext. intros [[[[a b] c] d] e]. unfold more. cbn [filter map fst snd]. rewrite !app_nil_r. destruct out; reflexivity.
  - rewrite loopM_cons. cbn [fst snd]. destruct (conn_fresh out net next i place F (K (i, place) (or_introl eq_refl))) as (n1 & E1 & F1 & P1 & I1 & J1 & T1). rewrite E1. cbn [bind].
    assert (Ti : map tr_id (n_trans n1) = map tr_id (n_trans net)).
    { rewrite <- !views_ids, T1, map_map. apply map_ext. intros v. unfold vch. destruct (N.eqb (tv_id v) i), out; reflexivity. }
    destruct (IH n1 (N.succ next) F1) as (n2 & x2 & E2 & F2 & P2 & I2 & J2 & T2); [intros c Hc; rewrite Ti; apply K; right; exact Hc|].
    exists n2, x2. split; [exact E2|]. split; [exact F2|]. split; [congruence|]. split; [congruence|]. split; [congruence|]. rewrite T2, T1, map_map. apply map_ext. intros [[[[a b] c] d] e].
    unfold more, vch, tv_id. cbn [filter fst snd]. rewrite (N.eqb_sym i a). destruct (N.eqb a i), out; cbn [map fst snd]; rewrite <- ?app_assoc; reflexivity.
Qed.
Lemma Forall2_views (R : ptrans -> ptrans -> Prop) (G : ptrans -> tv) l : forall l', map view l' = map G l -> (forall t t', In t l -> view t' = G t -> R t t') -> Forall2 R l l'.
Proof.
  induction l as [|t l IH]; intros l' E H; (destruct l' as [|t' l']; [|try discriminate]); try discriminate; [constructor|].
  cbn [map] in E. assert (E1 : view t' = G t) by congruence. assert (E2 : map view l' = map G l) by congruence. constructor; [apply H; [left; reflexivity|exact E1]|]. apply IH; [exact E2|]. intros u u' Hu. apply H. right. exact Hu.
Qed.
Definition named (loud : list ptrans) (c : pystr) : ptrans := match find (fun t => str_eqb (tr_name t) c) loud with Some t => t | None => mkTrans 0 [] false [] [] end.
Lemma named_In loud c : In c (map tr_name loud) -> In (named loud c) loud /\ tr_name (named loud c) = c.
Proof.
  intros H. unfold named. destruct (find (fun t => str_eqb (tr_name t) c) loud) as [t|] eqn:E.
  - apply find_some in E. destruct E as [E1 E2]. apply str_eqb_eq in E2. auto.
  - exfalso. apply in_map_iff in H. destruct H as (t & Et & Ht). apply (find_none _ _ E) in Ht. cbn in Ht. rewrite Et, str_eqb_refl in Ht. discriminate.
Qed.
Lemma named_it loud t : NoDup (map tr_name loud) -> In t loud -> named loud (tr_name t) = t.
Proof. intros ND Ht. destruct (named_In loud (tr_name t)) as [H1 H2]; [apply in_map, Ht|]. eapply once_inj; eauto. Qed.
Lemma filter_flat_map {A B} (q : B -> bool) (f : A -> list B) l : filter q (flat_map f l) = flat_map (fun x => filter q (f x)) l.
Proof. induction l as [|x l IH]; [reflexivity|]. cbn [flat_map]. rewrite filter_app, IH. reflexivity. Qed.
Lemma prod_one {A B C} (n : A) (F : A * B -> list C) cl (cl' : list B) : NoDup cl -> In n cl -> (forall a b, In a cl -> In b cl' -> a <> n -> F (a, b) = []) ->
  flat_map F (list_prod cl cl') = flat_map (fun b => F (n, b)) cl'.
Proof.
  assert (Z : forall a, (forall b, In b cl' -> F (a, b) = []) -> flat_map F (map (pair a) cl') = []).
  { intros a H. induction cl' as [|b l IH]; [reflexivity|]. cbn [map flat_map]. rewrite H by (left; reflexivity). apply IH. intros c Hc. apply H. right. exact Hc. }
  assert (Y : forall cl, ~ In n cl -> (forall a b, In a cl -> In b cl' -> a <> n -> F (a, b) = []) -> flat_map F (list_prod cl cl') = []).
  { clear cl. induction cl as [|a cl IH]; intros Hn K; [reflexivity|]. cbn [list_prod]. rewrite flat_map_app, Z, IH; [reflexivity|intros X; apply Hn; right; exact X|intros c b Hc; apply K; right; exact Hc|].
    intros b Hb. apply K; [left; reflexivity|exact Hb|]. intros ->. apply Hn. left. reflexivity. }
  induction cl as [|a cl IH]; intros ND Hn K; [destruct Hn|]. inversion ND as [|? ? Ha ND']; subst. cbn [list_prod]. rewrite flat_map_app. destruct Hn as [->|Hn].
  - rewrite Y; [|exact Ha|intros a b H; apply K; right; exact H]. rewrite app_nil_r, flat_map_map. reflexivity.
  - rewrite Z; [|intros b Hb; apply K; [left; reflexivity|exact Hb|intros ->; contradiction]]. apply IH; [exact ND'|exact Hn|intros c b H; apply K; right; exact H].
Qed.

Section Loops.
  Variable ords : nat -> nat -> forall A : Type, list A -> list A.
  Hypothesis O : forall i, any_order (ords i).
  Variable log : list (list pystr).
  Variable p : hparams.
  Hypothesis clear : clear_names log.
  Variable rel : pystr -> pystr -> bool.
  Hypothesis Hrel : forall a b, rel a b = true <-> alternate log p a b.
  Variables (blocks : list iblock) (loud silent : list ptrans) (net : pnet) (next : N).
  Hypothesis B : base_of log p blocks loud silent net next.
  Lemma find_named_proof c : class_of log c -> find_named ords net c = Ok (named loud c).
  Proof.
    intros Hc. destruct B as (B1 & B2 & B3 & B4 & B5 & B6 & B7 & B8).
    destruct (named_In loud c) as [N1 N2]; [apply (lo_classes _ _ _ _ B2), Hc|]. unfold find_named.
    assert (Hu : forall t, In t (ords 0 37 _ (n_trans net)) -> tr_name t = c -> t = named loud c).
    { intros t Ht E. apply (Permutation_in _ (O 0 37 _ _)) in Ht. rewrite B7, in_app_iff in Ht. destruct Ht as [Ht|Ht].
      - eapply once_inj; [apply (lo_once _ _ _ _ B2)|exact Ht|exact N1|congruence].
      - exfalso. assert (X : In (view t) (flat_map hb_silent (map fst blocks))) by (rewrite <- B8; apply in_map, Ht). apply in_flat_map in X. destruct X as (b & Hb & X). unfold hb_silent in X. apply in_map_iff in X. destruct X as (g & X & _).
        assert (Y : tr_name t = str "silent_start_" ++ hb_class b) by (unfold view in X; congruence). apply (clear c (hb_class b)); [exact Hc| |congruence].
        assert (Z : In (hb_class b) (map hb_class (map fst blocks))) by (apply in_map, Hb). apply (bo_classes _ _ _ B1) in Z. destruct Z as (d & Hd). apply Hd. }
    destruct (find _ _) as [t|] eqn:E.
    - apply find_some in E. destruct E as [E1 E2]. apply str_eqb_eq in E2. rewrite (Hu t E1 E2). reflexivity.
    - exfalso. assert (X : In (named loud c) (ords 0 37 _ (n_trans net))). { apply (Permutation_in _ (Permutation_sym (O 0 37 _ _))). rewrite B7. apply in_app_iff. auto. }
      apply (find_none _ _ E) in X. cbn in X. rewrite N2, str_eqb_refl in X. discriminate.
  Qed.
  Variables cl cl' : list pystr.
  Hypothesis ND : NoDup cl.
  Hypothesis ND' : NoDup cl'.
  Hypothesis Hcl : forall c, In c cl <-> class_of log c.
  Hypothesis Hcl' : forall c, In c cl' <-> class_of log c.
  Definition cond (ab : pystr * pystr) : bool := negb (str_eqb (fst ab) (snd ab)) && rel (fst ab) (snd ab).
  Definition from_arcs (ab : pystr * pystr) : list (N * N) := if cond ab then map (fun pl => (tr_id (named loud (fst ab)), pl)) (outs (named loud (snd ab))) else [].
  Definition to_arcs (ab : pystr * pystr) : list (N * N) := if cond ab then map (fun pl => (tr_id (named loud (fst ab)), pl)) (ins (named loud (snd ab))) else [].
  Definition turn (c : N * N) : N * N := (snd c, fst c).
  Lemma arcs_loop l : (forall ab, In ab l -> class_of log (fst ab) /\ class_of log (snd ab)) -> forall f t,
    loopM (fun found ab =>
      if negb (str_eqb (fst ab) (snd ab)) && rel (fst ab) (snd ab) then
        bind (find_named ords net (fst ab)) (fun first => bind (find_named ords net (snd ab)) (fun second =>
        Ok (fst found ++ map (fun a => (arc_place a, tr_id first)) (tr_out second),
            snd found ++ map (fun a => (tr_id first, arc_place a)) (tr_in second))))
      else Ok found) l (f, t) = Ok (f ++ map turn (flat_map from_arcs l), t ++ flat_map to_arcs l).
  Proof.
    induction l as [|ab l IH]; intros K f t; [cbn [flat_map map]; rewrite !app_nil_r; reflexivity|]. rewrite loopM_cons. cbn [flat_map]. unfold from_arcs at 1, to_arcs at 1, cond.
    destruct (K ab (or_introl eq_refl)) as [K1 K2]. destruct (negb (str_eqb (fst ab) (snd ab)) && rel (fst ab) (snd ab)).
    - rewrite !find_named_proof by assumption. cbn [bind fst snd]. rewrite IH by (intros c Hc; apply K; right; exact Hc). unfold outs, ins. rewrite map_app, !map_map. cbn [turn fst snd]. rewrite <- !app_assoc. reflexivity.
    - cbn [bind]. rewrite IH by (intros c Hc; apply K; right; exact Hc). reflexivity.
  Qed.
  Lemma loop_arcs_proof : loop_arcs ords net rel cl cl' = Ok (map turn (flat_map from_arcs (list_prod cl cl')), flat_map to_arcs (list_prod cl cl')).
  Proof.
    unfold loop_arcs. rewrite arcs_loop; [reflexivity|]. intros [a b] H. apply in_prod_iff in H. destruct H as [Ha Hb]. cbn [fst snd]. split; [apply Hcl, Ha|apply Hcl', Hb].
  Qed.
  Definition partners (t : ptrans) : list ptrans := map (named loud) (filter (fun b => cond (tr_name t, b)) cl').
  Lemma loud_ids : NoDup (map tr_id loud).
  Proof. destruct B as (_ & _ & [B3 _] & _ & _ & _ & B7 & _). unfold all_ids in B3. apply NoDup_app_l in B3. rewrite B7, map_app in B3. eapply NoDup_app_l. exact B3. Qed.
  Lemma arcs_of_trans (g : ptrans -> list N) t : In t loud ->
    map snd (filter (fun c => N.eqb (fst c) (tr_id t)) (flat_map (fun ab => if cond ab then map (fun pl => (tr_id (named loud (fst ab)), pl)) (g (named loud (snd ab))) else []) (list_prod cl cl'))) = flat_map g (partners t).
  Proof.
    intros Ht. destruct B as (_ & B2 & _). rewrite filter_flat_map. rewrite (prod_one (tr_name t)); [|exact ND|apply Hcl, (lo_classes _ _ _ _ B2), in_map, Ht|].
    - cbn [fst snd]. rewrite named_it by (apply B2 || exact Ht). unfold partners. rewrite flat_map_map. clear ND'.
      assert (E : forall l, map snd (flat_map (fun b => filter (fun c => N.eqb (fst c) (tr_id t)) (if cond (tr_name t, b) then map (fun pl => (tr_id t, pl)) (g (named loud b)) else [])) l) = flat_map (fun x => g (named loud x)) (filter (fun b => cond (tr_name t, b)) l)); [|apply E].
      induction l as [|b l IH]; [reflexivity|]. cbn [flat_map filter]. rewrite map_app, IH. destruct (cond (tr_name t, b)); [|reflexivity]. cbn [flat_map]. f_equal.
      induction (g (named loud b)) as [|x m IHm]; [reflexivity|]. cbn [map filter fst]. rewrite N.eqb_refl. cbn [map snd]. f_equal. exact IHm.
    - intros a b Ha Hb Hne. cbn [fst snd]. destruct (cond (a, b)); [|reflexivity]. destruct (named_In loud a) as [N1 N2]; [apply (lo_classes _ _ _ _ B2), Hcl, Ha|].
      assert (E : N.eqb (tr_id (named loud a)) (tr_id t) = false). { apply N.eqb_neq. intros X. apply Hne. assert (named loud a = t) by (eapply once_inj; [exact loud_ids|exact N1|exact Ht|exact X]). congruence. }
      induction (g (named loud b)) as [|x m IHm]; [reflexivity|]. cbn [map filter fst]. rewrite E. exact IHm.
  Qed.
  Lemma partners_In t u : In t loud -> In u (partners t) <-> In u loud /\ tr_name u <> tr_name t /\ alternate log p (tr_name t) (tr_name u).
  Proof.
    intros Ht. destruct B as (_ & B2 & _). unfold partners. rewrite in_map_iff. unfold cond. cbn [fst snd]. split.
    - intros (b & <- & Hb). apply filter_In in Hb. destruct Hb as [Hb E]. apply andb_true_iff in E. destruct E as [E1 E2]. destruct (named_In loud b) as [N1 N2]; [apply (lo_classes _ _ _ _ B2), Hcl', Hb|]. split; [exact N1|]. rewrite N2. split; [|apply Hrel, E2].
      intros X. rewrite X, str_eqb_refl in E1. discriminate.
    - intros (Hu & Hne & Ha). exists (tr_name u). split; [apply named_it; [apply B2|exact Hu]|]. apply filter_In. split; [apply Hcl', (lo_classes _ _ _ _ B2), in_map, Hu|]. apply andb_true_iff. split; [rewrite str_eqb_no by congruence; reflexivity|apply Hrel, Ha].
  Qed.
  Lemma partners_once t : NoDup (partners t).
  Proof.
    destruct B as (_ & B2 & _). unfold partners. apply (NoDup_map_inv tr_name). rewrite map_map. rewrite (map_ext_in _ (fun b => b)); [rewrite map_id; apply NoDup_filter, ND'|].
    intros b Hb. apply filter_In in Hb. apply named_In, (lo_classes _ _ _ _ B2), Hcl', Hb.
  Qed.
  Lemma loops_proof : exists net' next',
    bind (loopM (fun nn c => connect_place_to_transition nn (fst c) (snd c)) (map turn (flat_map from_arcs (list_prod cl cl'))) (net, next)) (fun nn =>
    loopM (fun nn c => connect_transition_to_place nn (fst c) (snd c)) (flat_map to_arcs (list_prod cl cl')) nn) = Ok (net', next') /\ heur_net log p (map fst blocks) loud net'.
  Proof.
    pose proof arcs_of_trans as AT. pose proof loud_ids as LI. pose proof partners_In as PI. destruct B as (B1 & B2 & B3 & B4 & B5 & B6 & B7 & B8).
    assert (Kab : forall ab, In ab (list_prod cl cl') -> In (tr_id (named loud (fst ab))) (map tr_id loud)).
    { intros [a b] H. apply in_prod_iff in H. apply in_map, named_In, (lo_classes _ _ _ _ B2), Hcl, H. }
    assert (K : forall (g : ptrans -> list N) (c : N * N), In c (flat_map (fun ab => if cond ab then map (fun pl => (tr_id (named loud (fst ab)), pl)) (g (named loud (snd ab))) else []) (list_prod cl cl')) -> In (fst c) (map tr_id loud)).
    { intros g c Hc. apply in_flat_map in Hc. destruct Hc as (ab & H & Hc). apply Kab in H. destruct (cond ab); [|destruct Hc]. apply in_map_iff in Hc. destruct Hc as (x & <- & _). exact H. }
    destruct (conns_proof false (flat_map from_arcs (list_prod cl cl')) net next B3) as (n1 & x1 & E1 & F1 & P1 & I1 & J1 & T1).
    { intros c Hc. rewrite B7, map_app. apply in_app_iff. left. apply (K outs c Hc). }
    assert (Ti : map tr_id (n_trans n1) = map tr_id (n_trans net)) by (rewrite <- !views_ids, T1, map_map; reflexivity).
    destruct (conns_proof true (flat_map to_arcs (list_prod cl cl')) n1 x1 F1) as (n2 & x2 & E2 & F2 & P2 & I2 & J2 & T2).
    { intros c Hc. rewrite Ti, B7, map_app. apply in_app_iff. left. apply (K ins c Hc). }
    exists n2, x2. split.
    { replace (loopM (fun nn c => connect_place_to_transition nn (fst c) (snd c)) (map turn (flat_map from_arcs (list_prod cl cl'))) (net, next)) with (Ok (n1, x1)); [exact E2|]. rewrite <- E1.
      generalize (flat_map from_arcs (list_prod cl cl')). generalize (net, next). intros nn l. revert nn. induction l as [|c l IH]; intros nn; [reflexivity|]. cbn [map]. rewrite !loopM_cons. unfold conn at 1. change (fst (turn c)) with (snd c). change (snd (turn c)) with (fst c). destruct (connect_place_to_transition nn (snd c) (fst c)); [|reflexivity]. cbn [bind]. apply IH. }
    assert (Hsil : forall (g : ptrans -> list N) t, In t silent -> filter (fun c : N * N => N.eqb (fst c) (tr_id t)) (flat_map (fun ab => if cond ab then map (fun pl => (tr_id (named loud (fst ab)), pl)) (g (named loud (snd ab))) else []) (list_prod cl cl')) = []).
    { intros g t Ht. generalize (K g). clear - B3 B7 Ht. match goal with |- context [filter _ ?x] => generalize x end. intros l Kg. induction l as [|c l IH]; [reflexivity|]. cbn [filter]. destruct (N.eqb (fst c) (tr_id t)) eqn:E; [|apply IH; intros d Hd; apply Kg; right; exact Hd].
      exfalso. apply N.eqb_eq in E. destruct B3 as [B3 _]. unfold all_ids in B3. apply NoDup_app_l in B3. rewrite B7, map_app in B3. eapply NoDup_app_not; [exact B3|apply (Kg c (or_introl eq_refl))|rewrite E; apply in_map, Ht]. }
    split; try assumption; try congruence.
    - apply F2.
    - rewrite T1, B7, !map_map, map_app in T2. apply map_eq_app in T2. destruct T2 as (loud' & silent' & E & T3 & T4). exists loud', silent'. split; [exact E|]. split.
      + assert (Q : forall t, In t loud -> forall t', view t' = more true (flat_map to_arcs (list_prod cl cl')) (more false (flat_map from_arcs (list_prod cl cl')) (view t)) -> looped log p loud t t').
        { intros t Ht t' X. unfold more, view, tv_id in X. cbn [fst snd] in X.
          unfold from_arcs, to_arcs in X. rewrite (AT outs t Ht), (AT ins t Ht) in X. unfold looped. split; [congruence|]. split; [congruence|]. split; [congruence|]. exists (partners t). split; [apply partners_once|]. split; [intros u; apply PI, Ht|]. split; congruence. }
        eapply Forall2_views; [exact T3|]. intros t t' Ht X. apply Q; assumption.
      + change (map view silent' = flat_map hb_silent (map fst blocks)). rewrite T4, <- B8. apply map_ext_in. intros t Ht. unfold more, view, tv_id. cbn [fst snd]. unfold from_arcs, to_arcs. rewrite (Hsil outs t Ht), (Hsil ins t Ht). cbn [map]. rewrite !app_nil_r. reflexivity.
  Qed.
End Loops.

(** ** The whole algorithm *)
Theorem heur_proof ords log p next : (forall i, any_order (ords i)) -> clear_names log -> (forall t, In t log -> 2 <= length t) ->
  exists fuel0 net next' blocks loud, (forall fuel, fuel0 <= fuel -> discover_petri_net_heuristic ords fuel log p next = Ok (net, next')) /\ heur_net log p blocks loud net.
Proof.
  intros O Hclear L. unfold discover_petri_net_heuristic, calculate_triangle_relations. destruct (triangles_counts log [] L) as (tri & Et & Hc). rewrite Et. cbn [bind]. cbn [count_occ] in Hc. cbn zeta.
  set (info := r_create_from (ords 0) log false None).
  assert (C : forall k, NoDup (r_all_event_classes (ords 0) k info) /\ forall c, In c (r_all_event_classes (ords 0) k info) <-> class_of log c).
  { intros k. destruct (counts_proof (ords 0) (O 0) log false None) as (_ & H & _). destruct (H k) as [H1 H2]. split; [exact H1|]. intros c. rewrite class_of_In. apply H2. }
  unfold construct_heuristic_petri_net. cbn zeta.
  destruct (classes_loop (r_all_event_classes (ords 0) 32 info) [] empty_net next) as (n1 & x1 & ids & E1 & Ei & B1).
  { split; try reflexivity; [|constructor]. split; [constructor|intros ? []]. }
  { apply C. }
  assert (E1' : class_transitions (r_all_event_classes (ords 0) 32 info) (empty_net, next) = ((n1, x1), ids)) by exact E1. rewrite E1'. cbn [dkeys map app] in Ei.
  assert (Hids : forall c, class_of log c -> dget str_eq_dec ids c <> None).
  { intros c Hcc X. apply (proj2 (C 32)) in Hcc. rewrite <- Ei in Hcc. clear - Hcc X. unfold dkeys in Hcc. induction ids as [|[k v] d IH]; [destruct Hcc|]. cbn [dget] in X. cbn [map fst] in Hcc. destruct (str_eq_dec c k) as [->|Hne]; [discriminate|]. destruct Hcc as [->|Hcc]; [contradiction|]. auto. }
  destruct (add_classes_proof ords O log p ids Hids (dependency_relation (dependency_relations info p (r_all_event_classes (ords 0) 30 info) (r_all_event_classes (ords 0) 31 info))) (and_relation info p)) with
    (classes := r_all_event_classes (ords 0) 34 info) (todo := r_all_event_classes (ords 0) 33 info) (i := 0) (net := n1) (next := x1) (blocks := @nil iblock) as (fuel0 & n2 & x2 & blocks & E2 & B2 & R & M1 & M2).
  { intros a b. apply (relations_proof (ords 0) (O 0)); [apply C|apply C|apply C]. }
  { intros a b c. apply (and_together (ords 0) (O 0)). }
  { intros a b c. apply and_sym. }
  { apply C. } { apply C. } { apply C. } { apply C. } { exact B1. }
  cbn [app] in B2.
  destruct (base_proof log p ids n2 x2 blocks B2) as (loud & silent & Bo & _); [intros c; rewrite Ei; apply C|exact R|exact M1| |].
  { intros a. rewrite M2. split; [intros [_ H]; exact H|]. intros [b Hb]. split; [apply C, Hb|exists b; exact Hb]. }
  assert (Hal : forall a b, loop_relation p tri a b = true <-> alternate log p a b) by (intros a b; apply loop_alternate, Hc).
  destruct (loops_proof log p (loop_relation p tri) Hal blocks loud silent n2 x2 Bo (r_all_event_classes (ords 0) 35 info) (r_all_event_classes (ords 0) 36 info)) as (n3 & x3 & E3 & H3); try apply C.
  exists fuel0, n3, x3, (map fst blocks), loud. split; [|exact H3]. intros fuel Hf. rewrite (E2 fuel Hf). cbn [bind]. unfold add_length_two_loops. cbn [fst]. fold info.
  rewrite (loop_arcs_proof ords O log p Hclear (loop_relation p tri) blocks loud silent n2 x2 Bo); try apply C. cbn [bind]. exact E3.
Qed.
Theorem heur_panic ords fuel log p next : (exists t, In t log /\ length t < 2) -> discover_petri_net_heuristic ords fuel log p next = rpanic.
Proof. intros H. unfold discover_petri_net_heuristic, calculate_triangle_relations. rewrite (triangles_panic log H). reflexivity. Qed.
