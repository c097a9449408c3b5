(** Proofs about the net of the alpha++ NFC algorithm. *)
From Coq Require Import Permutation Sorted.
From Verif Require Import Py PyFacts InfoModel InfoSpec InfoProofs HashModel EqProofs ReplayModel ReplaySpec RInfoModel RInfoSpec RInfoProofs AlphaModel AlphaSpec AlphaProofs AlphaProofs4 PlusSpec NfcModel NfcSpec NfcNetModel NfcNetSpec NfcPlaceSpec NfcNetProofs NfcNetProofs2 NfcNetProofs3.

(** * What every result of a search has *)
Lemma maximize_keeps {T} (eqb : T -> T -> bool) merger ord (P : T -> Prop) : any_order ord -> (forall x y z, P x -> P y -> merger x y = Some z -> P z) ->
  forall fuel k vec r, Forall P vec -> maximize eqb merger ord fuel k vec = Ok r -> Forall P r.
Proof.
  intros O M. induction fuel as [|fuel IH]; intros k vec r F E; [discriminate|]. cbn [maximize] in E. destruct (max_round eqb merger (ord k T vec)) as [new|] eqn:R; [|congruence]. apply (IH (S k) new); [|exact E].
  assert (F' : Forall P (ord k T vec)) by (apply Forall_forall; intros x Hx; apply (proj1 (Forall_forall P vec) F), (Permutation_in _ (O k T vec)), Hx). clear F E. set (v := ord k T vec) in *. clearbody v.
  assert (Add : forall s x, Forall P s -> P x -> Forall P (hadd eqb s x)) by (intros s x Hs Hx; unfold hadd; destruct (existsb (eqb x) s); [exact Hs|]; apply Forall_app; auto).
  assert (At : forall i x, nth_error v i = Some x -> P x) by (intros i x Hi; apply (proj1 (Forall_forall P v) F'), (nth_error_In _ _ Hi)).
  unfold max_round in R. destruct (fold_left (max_pair eqb merger v) (list_prod (seq 0 (length v)) (seq 0 (length v))) ([], [], false)) as [[ne mi] ch] eqn:L.
  assert (G : forall l ne0 mi0 ch0, Forall P ne0 -> Forall P (fst (fst (fold_left (max_pair eqb merger v) l (ne0, mi0, ch0))))).
  { induction l as [|[i j] l IHl]; intros ne0 mi0 ch0 H; [exact H|]. cbn [fold_left]. unfold max_pair at 2. destruct (i =? j); [apply IHl, H|]. destruct (nth_error v i) as [x|] eqn:Ei; [|apply IHl, H]. destruct (nth_error v j) as [y|] eqn:Ej; [|apply IHl, H].
    destruct (merger x y) as [z|] eqn:Z; [|apply IHl, H]. apply IHl, Add; [exact H|]. exact (M x y z (At _ _ Ei) (At _ _ Ej) Z). }
  assert (Fn : Forall P ne) by (specialize (G (list_prod (seq 0 (length v)) (seq 0 (length v))) [] [] false (Forall_nil _)); rewrite L in G; exact G).
  destruct ch; [|discriminate]. injection R as <-. clear L G. revert ne Fn. induction (seq 0 (length v)) as [|i l IHl]; intros ne Fn; [exact Fn|]. cbn [fold_left]. apply IHl.
  destruct (existsb (Nat.eqb i) mi); [exact Fn|]. destruct (nth_error v i) as [x|] eqn:Ei; [|exact Fn]. apply Add; [exact Fn|exact (At _ _ Ei)].
Qed.
Lemma hadds_all {T} (eqb : T -> T -> bool) (P : T -> Prop) l : forall s, Forall P s -> Forall P l -> Forall P (fold_left (hadd eqb) l s).
Proof.
  induction l as [|x l IH]; intros s Hs Hl; [exact Hs|]. inversion Hl; subst. cbn [fold_left]. apply IH; [|assumption]. unfold hadd. destruct (existsb (eqb x) s); [exact Hs|]. apply Forall_app. auto.
Qed.
(** Sets with ascending names, all of which are in [S]. *)
Definition named (S : pystr -> Prop) (x : aset) : Prop := bsorted (as_left x) /\ bsorted (as_right x) /\ forall c, In c (as_left x) \/ In c (as_right x) -> S c.
Lemma extend_named S x y : named S x -> named S y -> named S (extend x y).
Proof.
  intros (_ & _ & X) (_ & _ & Y). split; [apply bset_of_sorted|]. split; [apply bset_of_sorted|]. intros c H. unfold extend in H. cbn [as_left as_right] in H. rewrite !bset_of_In, !in_app_iff in H.
  destruct H as [[H|H]|[H|H]]; auto.
Qed.
Lemma new_named (S : pystr -> Prop) a b : S a -> S b -> named S (as_new a b).
Proof. intros Ha Hb. split; [apply bsorted_one|]. split; [apply bsorted_one|]. cbn. intros c [[<-|[]]|[<-|[]]]; assumption. Qed.

Section Keep.
  Variable ord : nat -> forall A : Type, list A -> list A.
  Hypothesis O : any_order ord.
  Variable p : nprov.
  Variable S0 : pystr -> Prop.
  Hypothesis S_proof : forall k c, In c (r_all_event_classes ord k (np_info p)) -> S0 c.
  Lemma alpha_named fuel next net next' table : discover_petri_net_alpha ord fuel (nfc_aprovider p) next = Ok ((net, next'), table) -> forall x, In x (map snd table) -> named S0 x.
  Proof.
    unfold discover_petri_net_alpha. intros H. destruct (maximize_sets ord fuel (nfc_aprovider p) (create_initial_sets ord (nfc_aprovider p))) as [sets|e] eqn:E; [|discriminate]. cbn [bind] in H.
    assert (F : Forall (named S0) sets).
    { unfold maximize_sets in E. refine (maximize_keeps as_eqb _ ord (named S0) O _ fuel 100 _ sets _ E).
      - intros x y z X Y Z. unfold set_merger in Z. destruct (_ && _); [|discriminate]. injection Z as <-. apply extend_named; assumption.
      - unfold create_initial_sets. apply hadds_all; [constructor|]. apply Forall_forall. intros x Hx. apply filter_In in Hx. destruct Hx as (Hx & _). apply in_flat_map in Hx. destruct Hx as (c & Hc & Hx). apply filter_In in Hc.
        apply in_map_iff in Hx. destruct Hx as (d & <- & Hd). apply filter_In in Hd. apply new_named; [apply (S_proof 5), Hc|apply (S_proof 6), Hd]. }
    assert (F' : Forall (named S0) (filter_out_non_maximal_sets ord sets)).
    { apply Forall_forall. intros x Hx. unfold filter_out_non_maximal_sets in Hx. apply filter_In in Hx. destruct Hx as (Hx & _). apply (proj1 (Forall_forall _ _) F), (Permutation_in _ (O 7 _ sets)), Hx. }
    clear E F. set (s := filter_out_non_maximal_sets ord sets) in *. clearbody s. unfold create_petri_net in H. destruct (class_transitions _ _) as [nn ids].
    assert (T : forall l st st', loopM (set_place ids) l st = Ok st' -> Forall (named S0) l -> (forall x, In x (map snd (snd st)) -> named S0 x) -> forall x, In x (map snd (snd st')) -> named S0 x).
    { induction l as [|y l IH]; intros st st' L Fl Hst; [cbn in L; injection L as <-; exact Hst|]. rewrite loopM_cons in L. inversion Fl; subst. destruct (set_place ids st y) as [st1|e] eqn:Es; [|discriminate]. cbn [bind] in L. apply (IH st1 st' L); [assumption|].
      destruct st as [[n x0] tb]. unfold set_place in Es. destruct (add_place (n, x0) (as_string y)) as [[n1 x1] pl] eqn:Ea.
      match type of Es with bind ?m _ = _ => destruct m as [nn1|e1] eqn:E1; [|discriminate] end. cbn [bind] in Es. match type of Es with bind ?m _ = _ => destruct m as [nn2|e2] eqn:E2; [|discriminate] end. cbn [bind] in Es. injection Es as <-.
      cbn [snd] in *. intros x Hx. apply in_map_iff in Hx. destruct Hx as ([k v] & <- & Hx). cbn [snd]. assert (X : In (k, v) tb \/ v = y).
      { clear - Hx. induction tb as [|[k' v'] tb IH]; cbn in Hx; [destruct Hx as [Hx|[]]; injection Hx as _ <-; auto|]. destruct (N.eq_dec pl k'); cbn in Hx; destruct Hx as [Hx|Hx]; [right; congruence|left; right; exact Hx|left; left; exact Hx|].
        destruct (IH Hx) as [X|X]; [left; right; exact X|right; exact X]. }
      destruct X as [X| ->]; [apply Hst, (in_map snd _ _ X)|assumption]. }
    match type of H with bind ?m _ = _ => destruct m as [[nn1 tb]|e1] eqn:E1; [|discriminate] end. cbn [bind] in H.
    assert (Tb := T s (nn, []) (nn1, tb) E1 F' ltac:(intros x [])). cbn [snd] in Tb. intros x Hx. apply Tb.
    match type of H with context [let '(_, _) := ?e in _] => destruct e as [nn2 st] end. match type of H with bind ?m _ = _ => destruct m as [nn3|e3]; [|discriminate] end. cbn [bind] in H.
    match type of H with context [let '(_, _) := ?e in _] => destruct e as [nn4 sp] end. match type of H with bind ?m _ = _ => destruct m as [[n5 x5]|e5]; [|discriminate] end. cbn [bind] in H. injection H as _ _ <-. exact Hx.
  Qed.
End Keep.

Section Keep2.
  Variable ord : nat -> forall A : Type, list A -> list A.
  Hypothesis O : any_order ord.
  Variable p : nprov.
  Variable S0 : pystr -> Prop.
  Hypothesis S_proof : forall k c, In c (r_all_event_classes ord k (np_info p)) -> S0 c.
  Lemma pairs_named fuel w3 r : find_pairs ord fuel p w3 = Ok r -> Forall (named S0) r.
  Proof.
    intros E. unfold find_pairs in E. refine (maximize_keeps as_eqb _ ord (named S0) O _ fuel 3000 _ r _ E).
    - intros x y z X Y Z. unfold w3_merger in Z. destruct (w3_valid p w3 (extend x y)); [|discriminate]. injection Z as <-. apply extend_named; assumption.
    - unfold first_pairs. apply hadds_all; [constructor|]. apply Forall_forall. intros x Hx. apply filter_In in Hx. destruct Hx as (Hx & _). apply in_map_iff in Hx. destruct Hx as ((a & b) & <- & Hx). apply in_prod_iff in Hx.
      apply new_named; [apply (S_proof 83), Hx|apply (S_proof 84), Hx].
  Qed.
  Definition xnamed (x : xset) : Prop := named S0 (x_set x) /\ named S0 (mkASet (x_left x) (x_right x)).
  Lemma xsets_named fuel arrow w1 w2 sets r : (forall x, In x sets -> named S0 x) -> find_xsets ord fuel p arrow w1 w2 sets = Ok r -> Forall xnamed r.
  Proof.
    intros Hs E. unfold find_xsets in E. refine (maximize_keeps xset_eqb _ ord xnamed O _ fuel 2000 _ r _ E).
    - intros x y z (X1 & X2) (Y1 & Y2) Z. unfold xset_merger in Z. destruct (as_eqb _ _); [|discriminate]. destruct (xset_valid _ _ _ _ _); [|discriminate]. injection Z as <-. split; [apply extend_named; assumption|].
      exact (extend_named S0 _ _ X2 Y2).
    - unfold first_xsets. cbv zeta. apply hadds_all; [constructor|]. apply Forall_forall. intros x Hx. apply in_app_iff in Hx. destruct Hx as [Hx|Hx].
      + apply filter_In in Hx. destruct Hx as (Hx & _). apply in_flat_map in Hx. destruct Hx as (s & Hin & Hx). apply in_app_iff in Hx. destruct Hx as [Hx|Hx].
        * apply in_map_iff in Hx. destruct Hx as ((a & b) & <- & Hx). apply in_prod_iff in Hx. split; [apply Hs, Hin|]. apply new_named; [apply (S_proof 80), Hx|apply (S_proof 81), Hx].
        * apply in_flat_map in Hx. destruct Hx as (c & Hc & [<-|[<-|[]]]); (split; [apply Hs, Hin|]); cbn [x_left x_right].
          -- split; [apply bsorted_one|]. split; [constructor|]. cbn. intros d [[<-|[]]|[]]. apply (S_proof 82), Hc.
          -- split; [constructor|]. split; [apply bsorted_one|]. cbn. intros d [[]|[<-|[]]]. apply (S_proof 82), Hc.
      + apply in_map_iff in Hx. destruct Hx as (s & <- & Hin). split; [apply Hs, Hin|]. split; [constructor|]. split; [constructor|]. cbn. tauto.
  Qed.
  Lemma xset_sets_named x : xnamed x -> named S0 (xset_sets x).
  Proof.
    intros ((_ & _ & A) & (_ & _ & B)). split; [apply bset_of_sorted|]. split; [apply bset_of_sorted|]. cbn [as_left as_right x_left x_right] in *. intros c H. unfold xset_sets in H. cbn [as_left as_right] in H.
    rewrite !bset_of_In, !in_app_iff in H. destruct H as [[H|H]|[H|H]]; auto.
  Qed.
End Keep2.

(** * The net of some sets *)
Lemma NoDup_app_r {A} (l l' : list A) : NoDup (l ++ l') -> NoDup l'.
Proof. induction l as [|x l IH]; [auto|]. cbn. intros H. inversion H; subst. auto. Qed.
Lemma built_stands net next ids table : wired net next ids -> built net table -> (forall x s c, In x (map snd table) -> In c (sd s x) -> In c (map tr_name (n_trans net))) ->
  NoDup (dkeys table) /\ forall place x, In (place, x) table -> stands_for net place (as_left x) (as_right x).
Proof.
  intros W (B1 & B2) Hc. assert (ND : NoDup (dkeys table)).
  { assert (X := w_ids _ _ _ W). unfold all_ids in X. apply NoDup_app_r in X. apply NoDup_app_l in X. rewrite B2 in X. unfold dkeys in *. rewrite map_map in X. exact X. }
  split; [exact ND|]. intros place x Hx.
  assert (One : forall y, In (place, y) table -> y = x) by (intros y Hy; pose proof (In_dget N.eq_dec table place x ND Hx); pose proof (In_dget N.eq_dec table place y ND Hy); congruence).
  assert (G : forall out c, (exists t, In t (n_trans net) /\ tr_name t = c /\ In place (pls out t)) <-> In c (sd out x)).
  { intros out c. split.
    - intros (t & Ht & <- & H). rewrite (B1 t out Ht) in H. apply at_table_In in H. destruct H as (y & Hy & H). rewrite (One y Hy) in H. exact H.
    - intros H. assert (X := Hc x out c (in_map snd _ _ Hx) H). apply in_map_iff in X. destruct X as (t & <- & Ht). exists t. split; [exact Ht|]. split; [reflexivity|]. rewrite (B1 t out Ht). apply at_table_In. eauto. }
  split; intros c; [exact (G true c)|exact (G false c)].
Qed.
Lemma places_net_proof ord info loops sets next (S0 : pystr -> Prop) : any_order ord -> NoDup (r_all_event_classes ord 88 info) -> NoDup loops ->
  (forall c, In c (r_all_event_classes ord 88 info) -> ~ In c loops) -> (forall c, In c (r_all_event_classes ord 88 info) \/ In c loops <-> S0 c) -> Forall (named S0) sets ->
  exists net next' table, places_net ord info loops sets next = Ok ((net, next'), table) /\ nfc_net S0 (map (fun x => (as_left x, as_right x)) (ord 90 _ sets)) net.
Proof.
  intros O N1 N2 D HS F. unfold places_net. set (cl := r_all_event_classes ord 88 info ++ ord 89 _ loops).
  assert (Hcl : forall c, In c cl <-> S0 c).
  { intros c. rewrite <- HS. unfold cl. rewrite in_app_iff. split; (intros [H|H]; [left; exact H|right]); [apply (Permutation_in _ (O 89 _ loops)), H|apply (Permutation_in _ (Permutation_sym (O 89 _ loops))), H]. }
  assert (NDc : NoDup cl).
  { unfold cl. apply NoDup_app_disjoint; [exact N1|apply (Permutation_NoDup (Permutation_sym (O 89 _ loops)) N2)|]. intros c H H'. apply (D c H), (Permutation_in _ (O 89 _ loops)), H'. }
  assert (W0 : wired empty_net next []).
  { split; cbn; [constructor|intros i []| |constructor]. intros c i. split; [discriminate|]. intros (t & [] & _). }
  destruct (class_transitions_proof cl empty_net next [] W0 NDc) as (n1 & x1 & ids & E1 & W1 & P1 & I1 & F1 & Nm1 & T1); [intros c _ []|].
  replace (class_transitions cl (empty_net, next)) with ((n1, x1), ids) by (symmetry; exact E1). cbn [empty_net n_trans n_places n_initial n_final map app] in *.
  assert (Fo : forall x, In x (ord 90 _ sets) -> named S0 x) by (intros x Hx; apply (proj1 (Forall_forall _ _) F), (Permutation_in _ (O 90 _ sets)), Hx).
  destruct (set_places_proof ids (ord 90 _ sets) n1 x1 [] W1) as (n2 & x2 & table & E2 & M2 & W2 & B2 & I2 & F2 & Nm2 & S2).
  { split; [|rewrite P1; reflexivity]. intros t out Ht. destruct (T1 t Ht) as [[]|(_ & Hin & Hout)]. unfold pls, at_table. cbn [filter map]. destruct out; [rewrite Hout|rewrite Hin]; reflexivity. }
  { intros x Hx s. destruct (Fo x Hx) as (A & B & C). split; [destruct s; apply bsorted_NoDup; assumption|]. intros c Hc. assert (X : In c cl) by (apply Hcl, C; destruct s; auto). rewrite <- Nm1 in X. apply in_map_iff in X. destruct X as (t & Ec & Ht).
    assert (Y : dget str_eq_dec ids c = Some (tr_id t)) by (apply (w_class _ _ _ W1); exists t; auto). congruence. }
  cbn [app] in E2, B2. exists n2, x2, table. split; [exact E2|].
  assert (Nm : map tr_name (n_trans n2) = cl) by congruence.
  destruct (built_stands n2 x2 ids table W2 B2) as (ND & St).
  { intros x s c Hx Hc. rewrite Nm. apply Hcl. rewrite M2 in Hx. apply (Fo x Hx). destruct s; auto. }
  assert (Hk : forall out c pl, In pl (at_table out c table) -> In pl (dkeys (n_places n2))).
  { intros out c pl H. apply at_table_In in H. destruct H as (x & H & _). rewrite (proj2 B2). unfold dkeys. rewrite map_map. cbn [fst]. apply (in_map fst _ _ H). }
  split.
  - exact (w_ids _ _ _ W2).
  - exact (w_once _ _ _ W2).
  - intros c. rewrite Nm. apply Hcl.
  - intros t Ht. apply (in_map tr_silent) in Ht. rewrite S2 in Ht. apply in_map_iff in Ht. destruct Ht as (u & <- & Hu). destruct (T1 u Hu) as [[]|(X & _)]. exact X.
  - intros t Ht. assert (X := proj1 B2 t false Ht). unfold pls in X. rewrite X. apply at_table_NoDup, ND.
  - intros t Ht. assert (X := proj1 B2 t true Ht). unfold pls in X. rewrite X. apply at_table_NoDup, ND.
  - intros t a Ht [Ha|Ha]; [assert (X := proj1 B2 t false Ht)|assert (X := proj1 B2 t true Ht)]; unfold pls in X; (eapply Hk; rewrite <- X; apply in_map; exact Ha).
  - intros pl name H. rewrite (proj2 B2) in H. apply in_map_iff in H. destruct H as ([k x] & E & H). cbn [fst snd] in E. injection E as <- <-. exists (as_left x), (as_right x). split; [|split].
    + apply in_map_iff. exists x. split; [reflexivity|]. rewrite <- M2. apply (in_map snd _ _ H).
    + destruct x; reflexivity.
    + apply St, H.
  - intros A B H. apply in_map_iff in H. destruct H as (x & E & H). injection E as <- <-. rewrite <- M2 in H. apply in_map_iff in H. destruct H as ([k y] & Ey & H). cbn [snd] in Ey. subst y. exists k. split; [|apply St, H].
    rewrite (proj2 B2). apply in_map_iff. exists (k, x). split; [destruct x; reflexivity|exact H].
  - rewrite (proj2 B2), !map_length, <- M2, map_length. reflexivity.
  - congruence.
  - congruence.
Qed.
