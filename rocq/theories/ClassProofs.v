From Coq Require Import Permutation.
From Verif Require Import Py PyFacts GroupFacts InfoModel InfoSpec InfoProofs ClassModel ClassSpec.

(** What one layer looks like. *)
Definition grouped (ex : pystr -> result pystr) (prev next : list class_node) : Prop :=
  NoDup (names_of next) /\
  Permutation (flat_map cn_children next) prev /\
  (forall p, In p next -> cn_children p <> []) /\
  (forall c, In c prev -> exists p, In p next /\ In c (cn_children p)) /\
  (forall p c, In p next -> In c prev -> (In c (cn_children p) <-> ex (cn_name c) = Ok (cn_name p))).

Lemma layer_loop ex prev : forall d,
  loopM (fun d n => bind (ex (cn_name n)) (fun m => Ok (dpush str_eq_dec d m n))) prev d =
  bind (mapM (fun n => ex (cn_name n)) prev) (fun _ => Ok (group str_eq_dec (fun n => match ex (cn_name n) with Ok m => m | Err _ => [] end) prev d)).
Proof.
  induction prev as [|n prev IH]; intro d; [reflexivity|]. rewrite loopM_cons. cbn [mapM].
  destruct (ex (cn_name n)) as [m|e] eqn:E; cbn [bind]; [|reflexivity]. rewrite IH.
  destruct (mapM _ prev); cbn [bind]; [|reflexivity]. unfold group. cbn [fold_left]. now rewrite E.
Qed.

Lemma layer_ok ex prev next : class_layer ex prev = Ok next -> grouped ex prev next.
Proof.
  unfold class_layer. rewrite layer_loop. destruct (mapM _ prev) as [ms|] eqn:E; cbn [bind]; [|discriminate]. intros [= <-].
  set (f := fun n => match ex (cn_name n) with Ok m => m | Err _ => [] end).
  assert (Hf : forall c, In c prev -> ex (cn_name c) = Ok (f c)).
  { intros c Hc. unfold f. clear -E Hc. revert ms E. induction prev as [|x prev IH]; intros ms E; [destruct Hc|].
    cbn [mapM] in E. destruct (ex (cn_name x)) eqn:Ex; cbn [bind] in E; [|discriminate].
    destruct (mapM _ prev) eqn:Er; cbn [bind] in E; [|discriminate]. destruct Hc as [->|Hc]; [now rewrite Ex|]. eapply IH; [exact Hc|reflexivity]. }
  pose proof (group_NoDup str_eq_dec f prev [] (NoDup_nil _)) as Hnd.
  pose proof (group_list str_eq_dec f prev) as Hl.
  assert (Hk : forall k, In k (dkeys (group str_eq_dec f prev [])) <-> exists c, In c prev /\ f c = k).
  { intro k. rewrite group_keys. cbn. rewrite in_map_iff. firstorder. }
  set (ks := dkeys (group str_eq_dec f prev [])) in *. rewrite Hl. rewrite map_map. cbn [fst snd].
  assert (Hp : forall p, In p (map (fun k => CNode k (filter (keyb str_eq_dec f k) prev)) ks) <-> exists k, In k ks /\ p = CNode k (filter (keyb str_eq_dec f k) prev)).
  { intro p. rewrite in_map_iff. firstorder. }
  repeat split.
  - unfold names_of. rewrite map_map. cbn. now rewrite map_id.
  - rewrite flat_map_concat_map, map_map. cbn [cn_children]. apply classes_perm; [exact Hnd|].
    intros x Hx. apply Hk. now exists x.
  - intros p H. apply Hp in H. destruct H as (k & H & ->). cbn. apply Hk in H. destruct H as (c & Hc & Hfc).
    intro En. assert (Hin : In c (filter (keyb str_eq_dec f k) prev)) by (apply filter_In; split; [exact Hc|now apply keyb_true]). rewrite En in Hin. destruct Hin.
  - intros c Hc. exists (CNode (f c) (filter (keyb str_eq_dec f (f c)) prev)). split.
    + apply Hp. exists (f c). split; [apply Hk; now exists c|reflexivity].
    + cbn. apply filter_In. split; [exact Hc|now apply keyb_true].
  - apply Hp in H. destruct H as (k & H & ->). cbn. intro Hin. apply filter_In in Hin. destruct Hin as [_ Hin]. apply keyb_true in Hin. rewrite (Hf _ H0). now subst.
  - apply Hp in H. destruct H as (k & H & ->). cbn. intro Hex. rewrite (Hf _ H0) in Hex. injection Hex as Hex. apply filter_In. split; [exact H0|now apply keyb_true].
Qed.

Lemma layer_fails ex prev : (exists next, class_layer ex prev = Ok next) <-> forall c, In c prev -> exists m, ex (cn_name c) = Ok m.
Proof.
  unfold class_layer. rewrite layer_loop. induction prev as [|x prev IH].
  - cbn. split; [intros _ c []|eauto].
  - cbn [mapM]. destruct (ex (cn_name x)) as [m|e] eqn:Ex; cbn [bind].
    + destruct (mapM _ prev) as [ms|e] eqn:Em; cbn [bind] in *.
      * split; [|eauto]. intros _ c [<-|Hc]; [eauto|]. apply IH; eauto.
      * split; [intros [n H]; discriminate|]. intro H. destruct (proj2 IH) as [n Hn]; [intros c Hc; apply H; now right|discriminate].
    + split; [intros [n H]; discriminate|]. intro H. destruct (H x) as [m Hm]; [now left|congruence].
Qed.

(** Levels respect permutations. *)
Lemma flat_map_perm {A B} (f : A -> list B) l1 l2 : Permutation l1 l2 -> Permutation (flat_map f l1) (flat_map f l2).
Proof.
  induction 1 as [|x l1 l2 H IH|x y l|l1 l2 l3 H1 IH1 H2 IH2]; cbn.
  - constructor.
  - now apply Permutation_app_head.
  - rewrite !app_assoc. apply Permutation_app_tail, Permutation_app_comm.
  - etransitivity; eauto.
Qed.
Lemma level_perm d : forall l1 l2, Permutation l1 l2 -> Permutation (level d l1) (level d l2).
Proof. induction d as [|d IH]; intros l1 l2 H; cbn; [exact H|]. apply IH, flat_map_perm, H. Qed.

Lemma promote_app a b n : promote (a ++ b) n = bind (promote a n) (promote b).
Proof. revert n. induction a as [|ex a IH]; intro n; cbn; [reflexivity|]. destruct (ex n); cbn; auto. Qed.

(** The whole structure, for a first layer without children. *)
Definition well_layered (names : list pystr) (exts : list (pystr -> result pystr)) (roots : list class_node) : Prop :=
  let k := length exts in
  (forall d, d <= k -> NoDup (names_of (level d roots)) /\
     forall m, In m (names_of (level d roots)) <-> exists n, In n names /\ promote (firstn (k - d) exts) n = Ok m) /\
  (forall d ex p c, d < k -> nth_error exts (k - S d) = Some ex -> In p (level d roots) -> In c (level (S d) roots) ->
     (In c (cn_children p) <-> ex (cn_name c) = Ok (cn_name p))) /\
  (forall p, In p (level k roots) -> cn_children p = []).

Lemma level_In_perm d l1 l2 p : Permutation l1 l2 -> In p (level d l1) <-> In p (level d l2).
Proof. intro H. pose proof (level_perm d _ _ H). split; apply Permutation_in; [|symmetry]; assumption. Qed.

Lemma step_layered names exts ex prev next :
  well_layered names exts prev -> grouped ex prev next -> well_layered names (exts ++ [ex]) next.
Proof.
  intros (H1 & H2 & H3) (G1 & G2 & G3 & G4 & G5). unfold well_layered. rewrite app_length. cbn [length]. replace (length exts + 1) with (S (length exts)) by lia.
  set (k := length exts) in *.
  assert (Hperm : forall d, Permutation (level (S d) next) (level d prev)) by (intro d; cbn [level]; now apply level_perm).
  repeat split.
  - destruct d as [|d]; [exact G1|]. apply (Permutation_NoDup (l := names_of (level d prev))).
    + unfold names_of. apply Permutation_map. symmetry. apply Hperm.
    + apply H1. lia.
  - destruct d as [|d].
    + cbn [level]. rewrite Nat.sub_0_r. rewrite firstn_all2 by (rewrite app_length; cbn; lia). intro Hm. unfold names_of in Hm. apply in_map_iff in Hm. destruct Hm as (p & <- & Hp).
      destruct (cn_children p) as [|c cs] eqn:Ec; [now destruct (G3 p Hp)|].
      assert (Hc : In c prev). { apply (Permutation_in _ G2). apply in_flat_map. exists p. split; [exact Hp|rewrite Ec; now left]. }
      assert (Hex : ex (cn_name c) = Ok (cn_name p)) by (apply (G5 p c Hp Hc); rewrite Ec; now left).
      destruct (proj1 (proj2 (H1 0 ltac:(lia)) (cn_name c))) as (n & Hn & Hpn); [cbn; unfold names_of; apply in_map; exact Hc|].
      exists n. split; [exact Hn|]. rewrite promote_app. rewrite Nat.sub_0_r in Hpn. unfold k in Hpn. rewrite firstn_all in Hpn. rewrite Hpn. cbn. now rewrite Hex.
    + intro Hm. assert (Hm' : In m (names_of (level d prev))).
      { unfold names_of in *. eapply Permutation_in; [|exact Hm]. apply Permutation_map, Hperm. }
      apply (proj2 (H1 d ltac:(lia))) in Hm'. destruct Hm' as (n & Hn & Hp). exists n. split; [exact Hn|].
      replace (S k - S d) with (k - d) by lia. rewrite firstn_app. unfold k in *. replace (length exts - d - length exts) with 0 by lia. cbn. now rewrite app_nil_r.
  - intros (n & Hn & Hp). destruct d as [|d].
    + cbn [level]. rewrite Nat.sub_0_r in Hp. rewrite firstn_all2 in Hp by (rewrite app_length; cbn; lia). rewrite promote_app in Hp.
      destruct (promote exts n) as [m0|] eqn:E0; cbn [bind] in Hp; [|discriminate].
      cbn in Hp. destruct (ex m0) as [m1|] eqn:E1; cbn in Hp; [|discriminate]. injection Hp as ->.
      assert (Hm0 : In m0 (names_of prev)). { apply (proj2 (H1 0 ltac:(lia)) m0). exists n. split; [exact Hn|]. rewrite Nat.sub_0_r. unfold k. now rewrite firstn_all. }
      unfold names_of in Hm0. apply in_map_iff in Hm0. destruct Hm0 as (c & <- & Hc). destruct (G4 c Hc) as (p & Hp & Hcp).
      apply (G5 p c Hp Hc) in Hcp. assert (cn_name p = m) by congruence. subst m. unfold names_of. now apply in_map.
    + unfold names_of. apply (Permutation_in (l := map cn_name (level d prev))); [symmetry; apply Permutation_map, Hperm|].
      apply (proj2 (H1 d ltac:(lia))). exists n. split; [exact Hn|]. replace (S k - S d) with (k - d) in Hp by lia. rewrite firstn_app in Hp. unfold k in *.
      replace (length exts - d - length exts) with 0 in Hp by lia. cbn in Hp. now rewrite app_nil_r in Hp.
  - rename H into Hd, H0 into He, H4 into Hp, H5 into Hc. destruct d as [|d].
    + cbn [level] in Hp, Hc. apply (Permutation_in _ G2) in Hc.
      replace (S k - 1) with k in He by lia. rewrite nth_error_app2 in He by (unfold k; lia). unfold k in He. rewrite Nat.sub_diag in He. cbn in He. injection He as <-. apply G5; auto.
    + apply (Permutation_in _ (Hperm d)) in Hp. apply (Permutation_in _ (Hperm (S d))) in Hc.
      apply (H2 d ex0 p c); [lia| |exact Hp|exact Hc]. rewrite nth_error_app1 in He by (unfold k; lia). now replace (k - S d) with (S k - S (S d)) by lia.
  - rename H into Hd, H0 into He, H4 into Hp, H5 into Hc. destruct d as [|d].
    + cbn [level] in Hp, Hc. apply (Permutation_in _ G2) in Hc.
      replace (S k - 1) with k in He by lia. rewrite nth_error_app2 in He by (unfold k; lia). unfold k in He. rewrite Nat.sub_diag in He. cbn in He. injection He as <-. apply G5; auto.
    + apply (Permutation_in _ (Hperm d)) in Hp. apply (Permutation_in _ (Hperm (S d))) in Hc.
      apply (H2 d ex0 p c); [lia| |exact Hp|exact Hc]. rewrite nth_error_app1 in He by (unfold k; lia). now replace (k - S d) with (S k - S (S d)) by lia.
  - intros p Hp. apply H3. apply (Permutation_in _ (Hperm k)) in Hp. exact Hp.
Qed.

Lemma base_layered names : NoDup names -> well_layered names [] (map (fun n => CNode n []) names).
Proof.
  intro Hnd. unfold well_layered. cbn [length]. repeat split.
  - assert (d = 0) by lia. subst d. cbn. unfold names_of. rewrite map_map. cbn. now rewrite map_id.
  - assert (d = 0) by lia. subst d. cbn. unfold names_of. rewrite map_map. cbn. rewrite map_id. intro Hm. exists m. auto.
  - assert (d = 0) by lia. subst d. cbn. unfold names_of. rewrite map_map. cbn. rewrite map_id. intros (n & Hn & [= <-]). exact Hn.
  - lia.
  - lia.
  - cbn. intros p Hp. apply in_map_iff in Hp. destruct Hp as (n & <- & _). reflexivity.
Qed.

Lemma layers_loop names exts : forall done layer roots, well_layered names done layer ->
  loopM (fun layer extractor => class_layer extractor layer) exts layer = Ok roots -> well_layered names (done ++ exts) roots.
Proof.
  induction exts as [|ex exts IH]; intros done layer roots Hw H.
  - cbn in H. injection H as <-. now rewrite app_nil_r.
  - rewrite loopM_cons in H. destruct (class_layer ex layer) as [next|] eqn:E; cbn [bind] in H; [|discriminate].
    change (ex :: exts) with ([ex] ++ exts). rewrite app_assoc. eapply IH; [|exact H]. eapply step_layered; [exact Hw|]. now apply layer_ok.
Qed.

Section Tree.
  Variable order : list pystr -> list pystr.
  Hypothesis order_perm : forall l, Permutation (order l) l.

  Lemma initial_names log :
    let l := order (dkeys (li_events_count (create_log_information log None false))) in
    NoDup l /\ forall n, In n l <-> In n (concat log).
  Proof.
    cbn zeta. destruct (info_keys_proof log None false) as (_ & Hnd & Hk). split.
    - eapply Permutation_NoDup; [symmetry; apply order_perm|]. tauto.
    - intro n. assert (Ho : In n (order (dkeys (li_events_count (create_log_information log None false)))) <-> In n (dkeys (li_events_count (create_log_information log None false)))).
      { split; apply Permutation_in; [|symmetry]; apply order_perm. }
      rewrite Ho. clear Ho. pose proof (events_exact_proof log None false n) as He. cbn zeta in He.
      assert (Hocc : occurrences log None = concat log).
      { unfold occurrences. rewrite flat_map_concat_map. f_equal. clear. induction log as [|t log IH]; cbn; [reflexivity|]. rewrite IH. f_equal.
        unfold kept. induction t as [|x t IHt]; cbn; [reflexivity|now rewrite IHt]. }
      rewrite Hocc in He. rewrite dget_Some_key. rewrite He. split.
      + intros [v Hv]. destruct (count_occ str_eq_dec (concat log) n =? 0) eqn:E; [discriminate|]. apply Nat.eqb_neq in E. apply (count_occ_In str_eq_dec). lia.
      + intro Hin. apply (count_occ_In str_eq_dec) in Hin. destruct (count_occ str_eq_dec (concat log) n =? 0) eqn:E; [apply Nat.eqb_eq in E; lia|eauto].
  Qed.

  Lemma tree_proof log exts roots : build_class_tree order log exts = Ok roots ->
    let k := length exts in
    (forall d, d <= k -> NoDup (names_of (level d roots)) /\
       forall m, In m (names_of (level d roots)) <-> exists n, In n (concat log) /\ promote (firstn (k - d) exts) n = Ok m) /\
    (forall d ex p c, d < k -> nth_error exts (k - S d) = Some ex -> In p (level d roots) -> In c (level (S d) roots) ->
       (In c (cn_children p) <-> ex (cn_name c) = Ok (cn_name p))) /\
    (forall p, In p (level k roots) -> cn_children p = []).
  Proof.
    unfold build_class_tree. intro H. destruct (initial_names log) as [Hnd Hin]. cbn zeta in *.
    destruct (layers_loop _ exts [] _ roots (base_layered _ Hnd) H) as (H1 & H2 & H3). cbn [app] in *. split; [|split; [exact H2|exact H3]].
    intros d Hd. destruct (H1 d Hd) as [Ha Hb]. split; [exact Ha|]. intro m. rewrite Hb. split; intros (n & Hn & Hp); exists n; (split; [now apply Hin|exact Hp]).
  Qed.

  Lemma layers_total names exts : forall done layer, well_layered names done layer ->
    ((exists roots, loopM (fun layer extractor => class_layer extractor layer) exts layer = Ok roots) <->
     forall n m, In n names -> promote done n = Ok m -> exists m', promote exts m = Ok m').
  Proof.
    induction exts as [|ex exts IH]; intros done layer Hw.
    - cbn. split; eauto.
    - rewrite loopM_cons. pose proof Hw as (H1 & H2 & H3).
      assert (Hn : forall m, In m (names_of layer) <-> exists n, In n names /\ promote done n = Ok m).
      { intro m. destruct (H1 0 ltac:(lia)) as [_ Hm]. cbn in Hm. rewrite Nat.sub_0_r in Hm. now rewrite firstn_all in Hm. }
      pose proof (layer_fails ex layer) as Hf. destruct (class_layer ex layer) as [next|e] eqn:E; cbn [bind].
      + rewrite (IH (done ++ [ex]) next).
        2: { eapply step_layered; [exact Hw|now apply layer_ok]. }
        split.
        * intros H n m Hin Hp. assert (Hm : In m (names_of layer)) by (apply Hn; eauto). unfold names_of in Hm. apply in_map_iff in Hm. destruct Hm as (c & <- & Hc).
          destruct (proj1 Hf (ex_intro _ _ eq_refl) c Hc) as [m1 Hm1]. cbn. rewrite Hm1. cbn. apply (H n m1 Hin). rewrite promote_app, Hp. cbn. now rewrite Hm1.
        * intros H n m Hin Hp. rewrite promote_app in Hp. destruct (promote done n) as [m0|] eqn:E0; cbn in Hp; [|discriminate].
          destruct (H n m0 Hin E0) as [m' Hm']. cbn in Hm'. destruct (ex m0) as [m1|] eqn:E1; cbn in Hp, Hm'; [|discriminate]. injection Hp as <-. eauto.
      + split; [intros [r H]; discriminate|]. intro H. exfalso. destruct (proj2 Hf) as [nx Hnx]; [|discriminate].
        intros c Hc. destruct (proj1 (Hn (cn_name c))) as (n & Hin & Hp); [unfold names_of; now apply in_map|]. destruct (H n _ Hin Hp) as [m' Hm']. cbn in Hm'. destruct (ex (cn_name c)); [eauto|discriminate].
  Qed.

  Lemma tree_total_proof log exts :
    (exists roots, build_class_tree order log exts = Ok roots) <-> forall n, In n (concat log) -> exists m, promote exts n = Ok m.
  Proof.
    unfold build_class_tree. destruct (initial_names log) as [Hnd Hin]. cbn zeta in *. rewrite (layers_total _ exts [] _ (base_layered _ Hnd)). cbn.
    split.
    - intros H n Hn. apply (H n n); [now apply Hin|reflexivity].
    - intros H n m Hn [= <-]. apply H. now apply Hin.
  Qed.
End Tree.
