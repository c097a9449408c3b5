(** Proofs about the fuzzy miner: weak edges, and the graph before clusters are looked for. *)
From Coq Require Import QArith Permutation Lqa.
From Verif Require Import Py PyFacts InfoModel InfoSpec InfoProofs ReplayModel RInfoModel RInfoSpec RInfoProofs AlphaModel HeurModel HeurSpec HeurProofs2 FuzzyModel FuzzySpec FuzzyProofs1 FuzzyProofs2.
Open Scope nat_scope.

(** ** Sources *)
Definition sources_inv (l : list (N * N)) (m : dict N (list N)) : Prop :=
  NoDup (dkeys m) /\ forall t, match dget N.eq_dec m t with
                               | Some s => NoDup s /\ s <> [] /\ forall f, In f s <-> In (f, t) l
                               | None => forall f, ~ In (f, t) l
                               end.
Lemma sources_proof l : sources_inv l (sources_of l).
Proof.
  unfold sources_of.
  assert (G : forall l done m, sources_inv done m -> sources_inv (done ++ l) (fold_left (fun m ft => match dget N.eq_dec m (snd ft) with
                         | Some s => dset N.eq_dec m (snd ft) (id_add s (fst ft))
                         | None => dset N.eq_dec m (snd ft) [fst ft]
                         end) l m)).
  { clear l. induction l as [|[f t] l IH]; intros done m H; [rewrite app_nil_r; exact H|]. cbn [fold_left fst snd].
    replace (done ++ (f, t) :: l) with ((done ++ [(f, t)]) ++ l) by (rewrite <- app_assoc; reflexivity). apply IH. destruct H as [H1 H2]. assert (Ht := H2 t).
    assert (W : forall v, (NoDup v /\ v <> [] /\ forall f', In f' v <-> In (f', t) (done ++ [(f, t)])) -> sources_inv (done ++ [(f, t)]) (dset N.eq_dec m t v)).
    { intros v Hv. split; [apply dset_NoDup; exact H1|]. intros t'. rewrite dget_dset. destruct (N.eq_dec t t') as [<-|Hne]; [exact Hv|].
      specialize (H2 t'). assert (K : forall f', In (f', t') (done ++ [(f, t)]) <-> In (f', t') done) by (intros f'; rewrite in_app_iff; cbn [In]; split; [intros [?|[E|[]]]; [assumption|congruence]|auto]).
      destruct (dget N.eq_dec m t') as [s|]; [destruct H2 as (A & B & C); repeat split; auto; intros; rewrite ?K; [apply C|apply C, K]; assumption|intros f'; rewrite K; apply H2]. }
    destruct (dget N.eq_dec m t) as [s|] eqn:E.
    - destruct Ht as (A & B & C). apply W. split; [apply id_add_NoDup, A|]. split; [|].
      + intros E0. assert (K : In f (id_add s f)) by (apply id_add_In; auto). rewrite E0 in K. destruct K.
      + intros f'. rewrite id_add_In, in_app_iff, C. cbn [In]. split; [intros [?| ->]; auto|intros [?|[E0|[]]]; [auto|injection E0 as <-; auto]].
    - apply W. split; [repeat constructor; intros []|]. split; [discriminate|]. intros f'. rewrite in_app_iff. cbn [In]. split; [intros [->|[]]; auto|intros [H|[E0|[]]]; [destruct (Ht f' H)|injection E0 as ->; auto]]. }
  apply (G l [] []). split; [constructor|]. intros t. cbn. auto.
Qed.

(** ** The smallest and the largest *)
Lemma min_fold l : forall x, let m := fold_left Qmin2 l x in In m (x :: l) /\ forall y, In y (x :: l) -> (m <= y)%Q.
Proof.
  induction l as [|z l IH]; intros x; cbn [fold_left]; cbn zeta.
  - split; [left; reflexivity|]. intros y [<-|[]]. lra.
  - destruct (IH (Qmin2 x z)) as [H1 H2]. cbn zeta in H1, H2. assert (L : (Qmin2 x z = x /\ x <= z \/ Qmin2 x z = z /\ z <= x)%Q).
    { unfold Qmin2. destruct (Qle_bool x z) eqn:E; [apply Qle_bool_iff in E|apply Qle_bool_no in E]; [left|right]; split; auto; lra. }
    assert (H0 := H2 (Qmin2 x z) (or_introl eq_refl)). split.
    + destruct H1 as [H1|H1]; [rewrite <- H1; destruct L as [[-> _]|[-> _]]; cbn [In]; auto|cbn [In]; auto].
    + intros y [<-|[<-|Hy]]; [| |apply H2; right; exact Hy]; destruct L as [[E L]|[E L]]; rewrite E in *; lra.
Qed.
Lemma max_fold l : forall x, let m := fold_left Qmax2 l x in In m (x :: l) /\ forall y, In y (x :: l) -> (y <= m)%Q.
Proof.
  induction l as [|z l IH]; intros x; cbn [fold_left]; cbn zeta.
  - split; [left; reflexivity|]. intros y [<-|[]]. lra.
  - destruct (IH (Qmax2 x z)) as [H1 H2]. cbn zeta in H1, H2. assert (L : (Qmax2 x z = x /\ z <= x \/ Qmax2 x z = z /\ x <= z)%Q).
    { unfold Qmax2. destruct (Qle_bool z x) eqn:E; [apply Qle_bool_iff in E|apply Qle_bool_no in E]; [left|right]; split; auto; lra. }
    assert (H0 := H2 (Qmax2 x z) (or_introl eq_refl)). split.
    + destruct H1 as [H1|H1]; [rewrite <- H1; destruct L as [[-> _]|[-> _]]; cbn [In]; auto|cbn [In]; auto].
    + intros y [<-|[<-|Hy]]; [| |apply H2; right; exact Hy]; destruct L as [[E L]|[E L]]; rewrite E in *; lra.
Qed.

(** What makes an edge which is left over stay. *)
Definition passes (log : flog) (p : fparams) (a b : pystr) : Prop :=
  exists lo hi, second_edge log p lo b /\ second_edge log p hi b /\
    (forall c, second_edge log p c b -> (useful log p lo b <= useful log p c b)%Q /\ (useful log p c b <= useful log p hi b)%Q) /\
    (((useful log p lo b == useful log p hi b)%Q /\ (fp_edge p <= 1)%Q) \/
     ((useful log p lo b < useful log p hi b)%Q /\ (fp_edge p <= (useful log p a b - useful log p lo b) / (useful log p hi b - useful log p lo b))%Q)).

Section Weak.
  Variable log : flog.
  Variable p : fparams.
  Variable nodes : dict N (option pystr).
  Variable ids : dict pystr N.
  Variable next : N.
  Hypothesis B : base log p nodes ids next.
  Notation estate := (estate log nodes ids).

  Lemma cut_loop b y (c : N * Q -> bool) (srcs : list (pystr * N)) : dget str_eq_dec ids b = Some y -> (forall ax, In ax srcs -> dget str_eq_dec ids (fst ax) = Some (snd ax)) ->
    forall k g, estate k g ->
    estate (fun a' b' => k a' b' && negb (str_eqb b' b && existsb (fun ax => str_eqb a' (fst ax) && c (snd ax, useful log p (fst ax) b)) srcs))
      (fold_left (fun g m => if c m then fg_disconnect g (fst m) y else g) (map (fun ax => (snd ax, useful log p (fst ax) b)) srcs) g).
  Proof.
    intros Hb. induction srcs as [|[a x] srcs IH]; intros Hs k g H; cbn [map fold_left existsb].
    - revert H. apply (estate_ext _ _ _ _ _ B). intros a' b' _ _. rewrite andb_false_r, andb_true_r. reflexivity.
    - assert (Ha := Hs (a, x) (or_introl eq_refl)). cbn [fst snd] in *.
      assert (H' : estate (fun a' b' => k a' b' && negb (peqb a b a' b' && c (x, useful log p a b))) (if c (x, useful log p a b) then fg_disconnect g x y else g)).
      { destruct (c (x, useful log p a b)).
        - generalize (estate_disconnect _ _ _ _ _ B k g a b x y H Ha Hb). apply (estate_ext _ _ _ _ _ B). intros a' b' _ _. rewrite andb_true_r. reflexivity.
        - revert H. apply (estate_ext _ _ _ _ _ B). intros a' b' _ _. rewrite andb_false_r, andb_true_r. reflexivity. }
      generalize (IH (fun ax K => Hs ax (or_intror K)) _ _ H'). apply (estate_ext _ _ _ _ _ B). intros a' b' _ _. rewrite <- andb_assoc. f_equal. unfold peqb.
      destruct (str_eqb a' a), (str_eqb b' b), (c (x, useful log p a b)); cbn; try reflexivity; rewrite ?andb_true_r; reflexivity.
  Qed.
  Lemma cut_weak_proof b y (srcs : list (pystr * N)) k g : dget str_eq_dec ids b = Some y -> (forall ax, In ax srcs -> dget str_eq_dec ids (fst ax) = Some (snd ax)) ->
    (forall a, In a (map fst srcs) <-> second_edge log p a b) -> srcs <> [] -> estate k g ->
    exists k', estate k' (cut_weak p y (map (fun ax => (snd ax, useful log p (fst ax) b)) srcs) g) /\
      forall a' b', k' a' b' = true <-> k a' b' = true /\ (b' = b -> second_edge log p a' b -> passes log p a' b).
  Proof.
    intros Hb Hs Hm Hne H.
    set (measures := map (fun ax : pystr * N => (snd ax, useful log p (fst ax) b)) srcs).
    assert (C : exists mn mx, cut_weak p y measures g = fold_left (fun g m => if Qlt_bool (if Qeq_bool mx mn then 1%Q else ((snd m - mn) / (mx - mn))%Q) (fp_edge p) then fg_disconnect g (fst m) y else g) measures g /\
      In mn (map snd measures) /\ In mx (map snd measures) /\ forall v, In v (map snd measures) -> (mn <= v /\ v <= mx)%Q).
    { unfold cut_weak. destruct measures as [|m r] eqn:E; [unfold measures in E; destruct srcs; [congruence|discriminate]|].
      destruct (min_fold (map snd r) (snd m)) as [A1 A2]. destruct (max_fold (map snd r) (snd m)) as [A3 A4]. cbn zeta in *.
      eexists _, _. split; [reflexivity|]. split; [exact A1|]. split; [exact A3|]. intros v Hv. split; [apply A2, Hv|apply A4, Hv]. }
    destruct C as (mn & mx & -> & Hmn & Hmx & Hall).
    eexists. split; [apply cut_loop; [exact Hb|exact Hs|exact H]|].
    assert (U : forall v, In v (map snd measures) <-> exists a, second_edge log p a b /\ v = useful log p a b).
    { intros v. unfold measures. rewrite map_map. cbn [snd]. rewrite in_map_iff. split.
      - intros ([a x] & <- & Hax). exists a. split; [apply Hm; apply in_map_iff; exists (a, x); auto|reflexivity].
      - intros (a & Ha & ->). apply Hm in Ha. apply in_map_iff in Ha. destruct Ha as ([a' x] & <- & Hax). exists (a', x). auto. }
    apply U in Hmn, Hmx. destruct Hmn as (lo & Hlo & ->). destruct Hmx as (hi & Hhi & ->).
    assert (Hall' : forall c, second_edge log p c b -> (useful log p lo b <= useful log p c b)%Q /\ (useful log p c b <= useful log p hi b)%Q) by (intros c Hc; apply Hall, U; eauto).
    assert (P : forall a, second_edge log p a b -> Qlt_bool (if Qeq_bool (useful log p hi b) (useful log p lo b) then 1%Q else ((useful log p a b - useful log p lo b) / (useful log p hi b - useful log p lo b))%Q) (fp_edge p) = false <-> passes log p a b).
    { intros a Ha. unfold Qlt_bool. rewrite negb_false_iff, Qle_bool_iff.
      destruct (Qeq_bool (useful log p hi b) (useful log p lo b)) eqn:Eq.
      - apply Qeq_bool_iff in Eq. split.
        + intros L. exists lo, hi. split; [exact Hlo|]. split; [exact Hhi|]. split; [exact Hall'|]. left. split; [lra|exact L].
        + intros (lo' & hi' & H1 & H2 & H3 & H4). destruct H4 as [H4|H4]; [exact (proj2 H4)|]. destruct H4 as [H4 _]. destruct (Hall' lo' H1), (Hall' hi' H2). lra.
      - assert (Hlt : (useful log p lo b < useful log p hi b)%Q).
        { destruct (Hall' hi Hhi) as [L _]. destruct (Qlt_le_dec (useful log p lo b) (useful log p hi b)) as [L'|L']; [exact L'|]. assert (E : (useful log p hi b == useful log p lo b)%Q) by lra. apply Qeq_bool_iff in E. congruence. }
        split.
        + intros L. exists lo, hi. split; [exact Hlo|]. split; [exact Hhi|]. split; [exact Hall'|]. right. split; [exact Hlt|exact L].
        + intros (lo' & hi' & H1 & H2 & H3 & H4).
          assert (E1 : (useful log p lo' b == useful log p lo b)%Q) by (destruct (Hall' lo' H1), (H3 lo Hlo); lra).
          assert (E2 : (useful log p hi' b == useful log p hi b)%Q) by (destruct (Hall' hi' H2), (H3 hi Hhi); lra).
          destruct H4 as [[H4 _]|[_ H4]]; [lra|]. rewrite E1, E2 in H4. exact H4. }
    intros a' b'. cbn beta. rewrite andb_true_iff, negb_true_iff. apply and_iff_compat_l. rewrite andb_false_iff. split.
    - intros K -> Ha. apply P; [exact Ha|]. destruct K as [K|K]; [rewrite (proj2 (str_eqb_eq b b) eq_refl) in K; discriminate|].
      apply Hm in Ha. apply in_map_iff in Ha. destruct Ha as ([a x] & E & Hax). cbn [fst] in E. subst a'.
      match goal with |- ?q = false => destruct q eqn:E; [exfalso|reflexivity] end.
      assert (X : existsb (fun ax : pystr * N => str_eqb a (fst ax) && Qlt_bool (if Qeq_bool (useful log p hi b) (useful log p lo b) then 1%Q else ((snd (snd ax, useful log p (fst ax) b) - useful log p lo b) / (useful log p hi b - useful log p lo b))%Q) (fp_edge p)) srcs = true).
      { apply existsb_exists. exists (a, x). split; [exact Hax|]. cbn [fst snd]. rewrite (proj2 (str_eqb_eq a a) eq_refl). exact E. }
      congruence.
    - intros K. destruct (str_eqb b' b) eqn:Eb; [right|left; reflexivity]. apply str_eqb_eq in Eb. subst b'.
      match goal with |- ?q = false => destruct q eqn:E; [exfalso|reflexivity] end. apply existsb_exists in E. destruct E as ([a x] & Hax & E). cbn [fst snd] in E. apply andb_true_iff in E. destruct E as [E1 E2].
      apply str_eqb_eq in E1. subst a'. assert (Ha : second_edge log p a b) by (apply Hm; apply in_map_iff; exists (a, x); auto).
      apply (P a Ha) in K; [|reflexivity|exact Ha]. congruence.
  Qed.

  Variable ord : nat -> forall A : Type, list A -> list A.
  Hypothesis O : any_order ord.
  Let info := r_create_from ord (names_of log) false None.
  Lemma utility_proof a b : utility_measure info log (fp_rate p) a b = useful log p a b.
  Proof. unfold utility_measure, useful, info. rewrite binary_proof by exact O. rewrite proximity_proof. reflexivity. Qed.
  Lemma fg_name_proof k g a x : estate k g -> dget str_eq_dec ids a = Some x -> fg_name g x = Ok a.
  Proof. intros H Ha. unfold fg_name. rewrite (es_nodes _ _ _ _ _ H). apply (ba_iff _ _ _ _ _ B) in Ha. rewrite Ha. reflexivity. Qed.
  Lemma second_shown a b : second_edge log p a b -> In a (shown_names log p) /\ In b (shown_names log p).
  Proof. intros ((H1 & H2 & _) & _). auto. Qed.
  Lemma filter_loop (l : list (N * list N)) : NoDup (map fst l) ->
    (forall t s, In (t, s) l -> s <> [] /\ exists b, dget str_eq_dec ids b = Some t /\ forall f, In f s <-> exists a, dget str_eq_dec ids a = Some f /\ second_edge log p a b) ->
    forall k g, estate k g ->
    exists g' k', loopM (fun g ns =>
      bind (fg_name g (fst ns)) (fun second =>
      bind (mapM (fun id => bind (fg_name g id) (fun first => Ok (id, utility_measure info log (fp_rate p) first second))) (ord 18 _ (snd ns))) (fun measures =>
      Ok (cut_weak p (fst ns) measures g)))) l g = Ok g' /\ estate k' g' /\
      forall a b, k' a b = true <-> k a b = true /\ ((exists t, In t (map fst l) /\ dget str_eq_dec ids b = Some t) -> second_edge log p a b -> passes log p a b).
  Proof.
    induction l as [|[t s] l IH]; intros Hn Hl k g H.
    - exists g, k. split; [reflexivity|]. split; [exact H|]. intros a b. split; [intros K; split; [exact K|intros (t & [] & _)]|tauto].
    - destruct (Hl t s (or_introl eq_refl)) as (Hs & b & Hb & Hf). rewrite loopM_cons. cbn [fst snd]. rewrite (fg_name_proof k g b t H Hb). cbn [bind].
      assert (M : exists srcs, mapM (fun id => bind (fg_name g id) (fun first => Ok (id, utility_measure info log (fp_rate p) first b))) (ord 18 _ s) = Ok (map (fun ax : pystr * N => (snd ax, useful log p (fst ax) b)) srcs) /\
        (forall ax, In ax srcs -> dget str_eq_dec ids (fst ax) = Some (snd ax)) /\ map snd srcs = ord 18 _ s).
      { assert (Hin : forall f, In f (ord 18 _ s) -> exists a, dget str_eq_dec ids a = Some f). { intros f Hf'. apply (Permutation_in _ (O 18 _ s)) in Hf'. apply Hf in Hf'. destruct Hf' as (a & Ha & _). eauto. }
        revert Hin. generalize (ord 18 _ s). clear -H B O. induction l as [|f l IH]; intros Hin.
        - exists []. split; [reflexivity|]. split; [intros ? []|reflexivity].
        - destruct (Hin f (or_introl eq_refl)) as (a & Ha). destruct IH as (srcs & E & H1 & H2); [intros; apply Hin; right; assumption|]. exists ((a, f) :: srcs).
          cbn [mapM map fst snd]. rewrite (fg_name_proof k g a f H Ha). cbn [bind]. rewrite E. cbn [bind]. rewrite utility_proof. split; [reflexivity|]. split; [intros ax [<-|K]; [exact Ha|apply H1, K]|]. rewrite H2. reflexivity. }
      destruct M as (srcs & -> & M1 & M2). cbn [bind].
      assert (Hm : forall a, In a (map fst srcs) <-> second_edge log p a b).
      { intros a. split.
        - intros K. apply in_map_iff in K. destruct K as ([a' x] & <- & K). cbn [fst]. assert (Hx : In x s). { apply (Permutation_in _ (O 18 _ s)). rewrite <- M2. apply in_map_iff. exists (a', x). auto. }
          apply Hf in Hx. destruct Hx as (a2 & Ha2 & Hx). rewrite (id_inj _ _ _ _ _ B a' a2 x (M1 _ K) Ha2). exact Hx.
        - intros K. destruct (id_of _ _ _ _ _ B a (proj1 (second_shown a b K))) as (x & Hx).
          assert (Hin : In x s) by (apply Hf; eauto). apply (Permutation_in _ (Permutation_sym (O 18 _ s))) in Hin. rewrite <- M2 in Hin. apply in_map_iff in Hin. destruct Hin as ([a' x'] & E & Hin). cbn [snd] in E. subst x'.
          apply in_map_iff. exists (a', x). split; [|exact Hin]. cbn [fst]. apply (id_inj _ _ _ _ _ B a' a x (M1 _ Hin) Hx). }
      assert (Hne : srcs <> []). { intros ->. cbn [map] in M2. assert (L := Permutation_length (O 18 _ s)). rewrite <- M2 in L. destruct s; [congruence|discriminate]. }
      destruct (cut_weak_proof b t srcs k g Hb M1 Hm Hne H) as (k1 & H1 & K1).
      inversion Hn as [|? ? Hnt Hn']; subst. destruct (IH Hn' (fun t' s' K => Hl t' s' (or_intror K)) k1 _ H1) as (g' & k' & E & H2 & K2).
      exists g', k'. split; [exact E|]. split; [exact H2|]. intros a' b'. rewrite K2, K1. cbn [map fst In]. split.
      + intros [[K3 K4] K5]. split; [exact K3|]. intros (t' & [<-|Ht'] & Hb') Ha.
        * assert (Eb := id_inj _ _ _ _ _ B b' b t Hb' Hb). subst b'. apply K4; [reflexivity|exact Ha].
        * apply K5; [eauto|exact Ha].
      + intros [K3 K4]. split; [split; [exact K3|]|].
        * intros -> Ha. apply K4; [exists t; auto|exact Ha].
        * intros (t' & Ht' & Hb') Ha. apply K4; [eauto|exact Ha].
  Qed.
End Weak.

(** ** The nodes *)
Definition named_so_far (g : fgraph) (next : N) (ids : dict pystr N) : Prop :=
  NoDup (dkeys (fg_nodes g)) /\ NoDup (dkeys ids) /\ (forall id, In id (dkeys (fg_nodes g)) -> (id < next)%N) /\ fg_connections g = [] /\
  (forall c id, dget str_eq_dec ids c = Some id <-> dget N.eq_dec (fg_nodes g) id = Some (Some c)) /\
  (forall id o, dget N.eq_dec (fg_nodes g) id = Some o -> exists c, o = Some c).
Lemma fnodes_loop (keep : pystr -> bool) cs : forall g next ids, named_so_far g next ids -> NoDup cs -> (forall c, In c cs -> dget str_eq_dec ids c = None) ->
  let '(g', next', ids') := fold_left (fun '(g, next, ids) class =>
        if keep class then (fg_add_node g next (Some class), N.succ next, dset str_eq_dec ids class next) else (g, next, ids)) cs (g, next, ids) in
  named_so_far g' next' ids' /\ forall c, In c (dkeys ids') <-> (In c cs /\ keep c = true) \/ In c (dkeys ids).
Proof.
  induction cs as [|c cs IH]; intros g next ids Hi Hn Hf; cbn [fold_left].
  - split; [exact Hi|]. intros c. cbn [In]. tauto.
  - inversion Hn as [|? ? Hc Hn']; subst. destruct (keep c) eqn:Kc.
    + set (g1 := fg_add_node g next (Some c)). set (ids1 := dset str_eq_dec ids c next).
      assert (Hi1 : named_so_far g1 (N.succ next) ids1).
      { destruct Hi as (A & A' & B & C & D & E). unfold named_so_far, g1, ids1, fg_add_node. cbn [fg_nodes fg_connections]. split; [apply dset_NoDup; exact A|]. split; [apply dset_NoDup; exact A'|].
        assert (Hnext : dget N.eq_dec (fg_nodes g) next = None). { apply dget_None. intros H. apply B in H. lia. }
        split; [intros id H; apply dset_In_keys in H; destruct H as [->|H]; [lia|apply B in H; lia]|]. split; [exact C|]. split.
        - intros c' id. rewrite !dget_dset. destruct (str_eq_dec c c') as [<-|Hne]; destruct (N.eq_dec next id) as [<-|Hid].
          + split; reflexivity.
          + split; [congruence|]. intros H. apply D in H. rewrite (Hf c) in H by (left; reflexivity). discriminate.
          + split; [|congruence]. intros H. apply D in H. congruence.
          + apply D.
        - intros id o. rewrite dget_dset. destruct (N.eq_dec next id); [intros H; injection H as <-; eauto|apply E]. }
      assert (Hf1 : forall c', In c' cs -> dget str_eq_dec ids1 c' = None).
      { intros c' H. unfold ids1. rewrite dget_dset. destruct (str_eq_dec c c'); [congruence|]. apply Hf. right. exact H. }
      specialize (IH _ _ _ Hi1 Hn' Hf1).
      destruct (fold_left _ cs (g1, N.succ next, ids1)) as [[g' next'] ids']. destruct IH as [I1 I2]. split; [exact I1|].
      intros c'. rewrite I2. unfold ids1. rewrite dset_In_keys. cbn [In]. split.
      * intros [[H1 H2]|[->|H]]; auto.
      * intros [[[<-|H1] H2]|H]; auto.
    + specialize (IH _ _ _ Hi Hn' (fun c' H => Hf c' (or_intror H))).
      destruct (fold_left _ cs (g, next, ids)) as [[g' next'] ids']. destruct IH as [I1 I2]. split; [exact I1|]. intros c'. rewrite I2. cbn [In]. split.
      * intros [[H1 H2]|H]; auto.
      * intros [[[<-|H1] H2]|H]; [congruence|auto|auto].
Qed.

(** ** The graph before clusters are looked for *)
Section All.
  Variable ords : nat -> nat -> forall A : Type, list A -> list A.
  Hypothesis O : any_order (ords 0).
  Variable log : flog.
  Variable p : fparams.
  Hypothesis R0 : (0 <= fp_ratio p)%Q.
  Let info := r_create_from (ords 0) (names_of log) false None.
  Lemma initialize_proof next : exists g next' ids, initialize_fuzzy_graph ords info p next = Ok (g, next', ids) /\ base log p (fg_nodes g) ids next' /\
    estate log (fg_nodes g) ids (often log p) g.
  Proof.
    unfold initialize_fuzzy_graph. destruct (classes_proof (ords 0) O log 10) as [C1 C2]. fold info in C1, C2.
    assert (L := fnodes_loop (fun c => Qlt_bool (fp_unary p) (unary_significance info c)) (r_all_event_classes (ords 0) 10 info) fg_empty next []).
    match type of L with _ -> _ -> _ -> match ?x with _ => _ end =>
      match goal with |- context [fold_left ?f (r_all_event_classes (ords 0) 10 info) ?i] => change (fold_left f (r_all_event_classes (ords 0) 10 info) i) with x end;
      destruct x as [[g0 next0] ids] end.
    destruct L as [(A & A' & B & C & D & E) Hids].
    { unfold named_so_far, fg_empty. cbn [fg_nodes fg_connections dkeys map]. repeat split; try constructor; try (intros ? []); try discriminate. }
    { exact C1. }
    { reflexivity. }
    assert (Hb : base log p (fg_nodes g0) ids next0).
    { split; auto. intros c. rewrite Hids, shown_In, C2, Qlt_bool_iff. unfold info. rewrite unary_proof by exact O. cbn [dkeys map In]. tauto. }
    assert (H0 : estate log (fg_nodes g0) ids (fun _ _ => false) g0).
    { split; [|reflexivity| |].
      - unfold ftidy. rewrite C. split; [constructor|]. cbn [dget]. discriminate.
      - intros x y. unfold fedge, entry. rewrite C. cbn. congruence.
      - intros a b x y _ _. unfold fedge, entry. rewrite C. reflexivity. }
    destruct (first_loop log p (fg_nodes g0) ids next0 Hb (ords 0) O (list_prod (ords 0 11 _ (dkeys ids)) (ords 0 12 _ (dkeys ids)))) with (k := fun _ _ : pystr => false) (g := g0) as (g & Eg & Hg).
    { intros [a b] H. apply in_prod_iff in H. destruct H as [H1 H2]. cbn [fst snd]. split; apply (ba_shown _ _ _ _ _ Hb).
      - apply (Permutation_in _ (O 11 _ _) H1).
      - apply (Permutation_in _ (O 12 _ _) H2). }
    { exact H0. }
    match goal with |- context [bind ?m _] => assert (Eg' : m = Ok g) by exact Eg; rewrite Eg' end. cbn [bind]. exists g, next0, ids. split; [reflexivity|]. rewrite (es_nodes _ _ _ _ _ Hg). split; [exact Hb|].
    revert Hg. apply (estate_ext _ _ _ _ _ Hb). intros a b Ha Hb'. cbn [orb]. destruct (often log p a b); [|apply andb_false_r]. rewrite andb_true_r. apply pmem_In, in_prod_iff. split.
    - apply (Permutation_in _ (Permutation_sym (O 11 _ _))), (ba_shown _ _ _ _ _ Hb), Ha.
    - apply (Permutation_in _ (Permutation_sym (O 12 _ _))), (ba_shown _ _ _ _ _ Hb), Hb'.
  Qed.
  Lemma names_ok nodes ids next (nd : forall A : Type, list A -> list A) : base log p nodes ids next -> (forall A (l : list A), Permutation (nd A l) l) ->
    exists names, mapM (fun nd : N * option pystr => match snd nd with Some n => Ok n | None => rpanic end) (nd _ nodes) = Ok names /\ Permutation names (shown_names log p).
  Proof.
    intros Hb Hp.
    assert (G : forall l : list (N * option pystr), (forall x o, In (x, o) l -> dget N.eq_dec nodes x = Some o) -> exists names, mapM (fun nd : N * option pystr => match snd nd with Some n => Ok n | None => rpanic end) l = Ok names /\ map snd l = map Some names /\ forall c, In c names -> exists x, In (x, Some c) l).
    { induction l as [|[x o] l IH]; intros H; [exists []; repeat split; auto; intros ? []|].
      destruct (ba_named _ _ _ _ _ Hb x o (H x o (or_introl eq_refl))) as [c ->]. destruct IH as (names & E & M & F); [intros; apply H; right; assumption|].
      exists (c :: names). cbn [mapM snd map]. rewrite E, M. cbn [bind]. split; [reflexivity|]. split; [reflexivity|]. intros c' [<-|K]; [exists x; left; reflexivity|]. destruct (F c' K) as [x' Hx]. exists x'. right. exact Hx. }
    destruct (G (nd _ nodes)) as (names & E & M & F).
    { intros x o H. apply (Permutation_in _ (Hp _ nodes)) in H. apply In_dget; [apply (ba_nodes _ _ _ _ _ Hb)|exact H]. }
    exists names. split; [exact E|].
    assert (ND : NoDup (map fst (nd _ nodes))).
    { apply (Permutation_NoDup (l := dkeys nodes)); [|apply (ba_nodes _ _ _ _ _ Hb)]. unfold dkeys. apply Permutation_map, Permutation_sym, Hp. }
    assert (Hd : forall x o, In (x, o) (nd _ nodes) -> dget N.eq_dec nodes x = Some o).
    { intros x o H. apply (Permutation_in _ (Hp _ nodes)) in H. apply In_dget; [apply (ba_nodes _ _ _ _ _ Hb)|exact H]. }
    apply NoDup_Permutation.
    - assert (NS : NoDup (map snd (nd _ nodes))).
      { revert ND Hd. generalize (nd _ nodes). clear -Hb. induction l as [|[x o] l IH]; cbn [map fst snd]; intros ND Hd; [constructor|]. inversion ND; subst. constructor; [|apply IH; [assumption|intros; apply Hd; right; assumption]].
        intros K. apply in_map_iff in K. destruct K as ([x' o'] & E & K). cbn [snd] in E. subst o'. assert (K1 := Hd x o (or_introl eq_refl)). assert (K2 := Hd x' o (or_intror K)).
        destruct (ba_named _ _ _ _ _ Hb x o K1) as [c ->]. apply (ba_iff _ _ _ _ _ Hb) in K1, K2. rewrite K1 in K2. injection K2 as <-. apply H1. apply in_map_iff. exists (x, Some c). auto. }
      rewrite M in NS. apply NoDup_map_inv in NS. exact NS.
    - apply shown_NoDup.
    - intros c. split.
      + intros H. destruct (F c H) as [x Hx]. apply Hd in Hx. apply (ba_iff _ _ _ _ _ Hb) in Hx. apply (id_shown _ _ _ _ _ Hb) in Hx. exact Hx.
      + intros H. destruct (id_of _ _ _ _ _ Hb c H) as [x Hx]. apply (ba_iff _ _ _ _ _ Hb) in Hx. apply dget_In in Hx. apply (Permutation_in _ (Permutation_sym (Hp _ nodes))) in Hx.
        apply (in_map snd) in Hx. rewrite M in Hx. apply in_map_iff in Hx. destruct Hx as (c' & E' & Hx). injection E' as ->. exact Hx.
  Qed.
  Lemma fuzzy_edges_proof next : exists g next' ids k, fuzzy_edges ords log p next = Ok (info, g, next') /\ base log p (fg_nodes g) ids next' /\
    estate log (fg_nodes g) ids k g /\ forall a b, In a (shown_names log p) -> In b (shown_names log p) -> (k a b = true <-> third_edge log p a b).
  Proof.
    unfold fuzzy_edges. fold info. destruct (initialize_proof next) as (g1 & next' & ids & -> & Hb & H1). cbn [bind].
    unfold resolve_conflicts. destruct (names_ok (fg_nodes g1) ids next' (ords 0 15) Hb (O 15)) as (names & En & Pn).
    destruct (resolve_loop log p (fg_nodes g1) ids next' Hb (ords 0) names R0 (ords 0 15) En (list_prod (ords 0 13 _ (dkeys ids)) (ords 0 14 _ (dkeys ids)))) with (done := @nil (pystr * pystr)) (g := g1) as (g2 & E2 & H2).
    { intros [a b] H. apply in_prod_iff in H. destruct H as [Ha Hb']. cbn [fst snd]. split; apply (ba_shown _ _ _ _ _ Hb).
      - apply (Permutation_in _ (O 13 _ _) Ha).
      - apply (Permutation_in _ (O 14 _ _) Hb'). }
    { revert H1. apply (estate_ext _ _ _ _ _ Hb). intros a b _ _. unfold left_over, seen. cbn. rewrite andb_true_r. reflexivity. }
    fold info in E2. rewrite E2. cbn [bind].
    set (k2 := left_over log p (ords 0) names (rev (list_prod (ords 0 13 _ (dkeys ids)) (ords 0 14 _ (dkeys ids))) ++ [])) in H2.
    assert (K2 : forall a b, In a (shown_names log p) -> In b (shown_names log p) -> k2 a b = true <-> second_edge log p a b).
    { intros a b Ha Hb'. rewrite <- (keep_second log p (ords 0) O names Pn a b Ha Hb'). unfold k2, left_over.
      replace (seen _ a b) with true; [reflexivity|]. symmetry. unfold seen. apply orb_true_iff. left. apply pmem_In. rewrite app_nil_r, <- in_rev. apply in_prod_iff. split.
      - apply (Permutation_in _ (Permutation_sym (O 13 _ _))), (ba_shown _ _ _ _ _ Hb), Ha.
      - apply (Permutation_in _ (Permutation_sym (O 14 _ _))), (ba_shown _ _ _ _ _ Hb), Hb'. }
    clearbody k2. clear E2 En Pn names H1.
    unfold filter_edges.
    assert (S := sources_proof (ords 0 16 _ (fg_edges g2))). destruct S as [S1 S2].
    assert (Sin : forall f t, In (f, t) (ords 0 16 _ (fg_edges g2)) <-> exists a b, dget str_eq_dec ids a = Some f /\ dget str_eq_dec ids b = Some t /\ second_edge log p a b).
    { intros f t. assert (Pm : In (f, t) (ords 0 16 _ (fg_edges g2)) <-> In (f, t) (fg_edges g2)) by (split; apply Permutation_in; [apply O|apply Permutation_sym, O]). rewrite Pm.
      rewrite (fg_edges_In g2 f t (es_tidy _ _ _ _ _ H2)). split.
      - intros H. destruct (es_ends _ _ _ _ _ H2 f t H) as [Hf Ht]. destruct (name_of _ _ _ _ _ Hb f Hf) as (a & Ha & Ea). destruct (name_of _ _ _ _ _ Hb t Ht) as (b & Hb' & Eb).
        exists a, b. split; [exact Ea|]. split; [exact Eb|]. apply K2; auto. rewrite (es_edges _ _ _ _ _ H2 a b f t Ea Eb) in H. destruct (k2 a b); [reflexivity|congruence].
      - intros (a & b & Ea & Eb & H). rewrite (es_edges _ _ _ _ _ H2 a b f t Ea Eb). rewrite (proj2 (K2 a b (id_shown _ _ _ _ _ Hb a f Ea) (id_shown _ _ _ _ _ Hb b t Eb)) H). discriminate. }
    destruct (filter_loop log p (fg_nodes g1) ids next' Hb (ords 0) O (ords 0 17 _ (sources_of (ords 0 16 _ (fg_edges g2))))) with (k := k2) (g := g2) as (g3 & k3 & E3 & H3 & K3).
    { apply (Permutation_NoDup (l := dkeys (sources_of (ords 0 16 _ (fg_edges g2))))); [|exact S1]. unfold dkeys. apply Permutation_map, Permutation_sym, O. }
    { intros t s H. apply (Permutation_in _ (O 17 _ _)) in H. apply (In_dget N.eq_dec) in H; [|exact S1]. specialize (S2 t). rewrite H in S2. destruct S2 as (_ & Hs & Hf). split; [exact Hs|].
      destruct s as [|f s]; [congruence|]. assert (K := proj1 (Hf f) (or_introl eq_refl)). apply Sin in K. destruct K as (a & b & Ea & Eb & _). exists b. split; [exact Eb|].
      intros f'. rewrite Hf, Sin. split.
      - intros (a' & b' & Ea' & Eb' & K). exists a'. split; [exact Ea'|]. rewrite <- (id_inj _ _ _ _ _ Hb b' b t Eb' Eb). exact K.
      - intros (a' & Ea' & K). eauto. }
    { exact H2. }
    fold info in E3. rewrite E3. cbn [bind]. exists g3, next', ids, k3. split; [reflexivity|]. rewrite (es_nodes _ _ _ _ _ H3). split; [exact Hb|]. split; [exact H3|].
    intros a b Ha Hb'. rewrite K3, (K2 a b Ha Hb'). unfold third_edge. fold (passes log p a b). split; intros [L1 L2]; (split; [exact L1|]); [|auto].
    apply L2; [|exact L1]. destruct (id_of _ _ _ _ _ Hb b Hb') as [t Et]. destruct (id_of _ _ _ _ _ Hb a Ha) as [f Ef]. exists t. split; [|exact Et].
    assert (Hin : In (f, t) (ords 0 16 _ (fg_edges g2))) by (apply Sin; eauto 6). specialize (S2 t). destruct (dget N.eq_dec (sources_of (ords 0 16 _ (fg_edges g2))) t) as [s|] eqn:Es; [|destruct (S2 f Hin)].
    apply dget_In in Es. apply (Permutation_in _ (Permutation_sym (O 17 _ _))) in Es. apply in_map_iff. exists (t, s). auto.
  Qed.
End All.
