(** Proofs about the fuzzy miner: nodes and edges. *)
From Coq Require Import QArith Permutation Lqa.
From Verif Require Import Py PyFacts InfoModel InfoSpec InfoProofs ReplayModel RInfoModel RInfoSpec RInfoProofs AlphaModel HeurModel HeurSpec HeurProofs2 FuzzyModel FuzzySpec FuzzyProofs1.
Open Scope nat_scope.

Definition pmem (ab : pystr * pystr) (l : list (pystr * pystr)) : bool := if in_dec pair_eq_dec ab l then true else false.
Lemma pmem_In ab l : pmem ab l = true <-> In ab l.
Proof. unfold pmem. destruct (in_dec pair_eq_dec ab l); split; intros; auto; discriminate. Qed.
Definition peqb (a b a' b' : pystr) : bool := str_eqb a' a && str_eqb b' b.
Lemma peqb_iff a b a' b' : peqb a b a' b' = true <-> a' = a /\ b' = b.
Proof. unfold peqb. rewrite andb_true_iff, !str_eqb_eq. tauto. Qed.

(** The names of the nodes. *)
Record base (log : flog) (p : fparams) (nodes : dict N (option pystr)) (ids : dict pystr N) (next : N) : Prop := {
  ba_nodes : NoDup (dkeys nodes);
  ba_ids : NoDup (dkeys ids);
  ba_next : forall id, In id (dkeys nodes) -> (id < next)%N;
  ba_iff : forall c id, dget str_eq_dec ids c = Some id <-> dget N.eq_dec nodes id = Some (Some c);
  ba_named : forall id o, dget N.eq_dec nodes id = Some o -> exists c, o = Some c;
  ba_shown : forall c, In c (dkeys ids) <-> In c (shown_names log p) }.

Section Edges.
  Variable log : flog.
  Variable p : fparams.
  Variable nodes : dict N (option pystr).
  Variable ids : dict pystr N.
  Variable next : N.
  Hypothesis B : base log p nodes ids next.
  Lemma id_of c : In c (shown_names log p) -> exists x, dget str_eq_dec ids c = Some x.
  Proof. intros H. apply (ba_shown _ _ _ _ _ B) in H. apply (dget_Some_key str_eq_dec) in H. exact H. Qed.
  Lemma name_of x : In x (dkeys nodes) -> exists c, In c (shown_names log p) /\ dget str_eq_dec ids c = Some x.
  Proof.
    intros H. apply (dget_Some_key N.eq_dec) in H. destruct H as (o & H). destruct (ba_named _ _ _ _ _ B _ _ H) as (c & ->). exists c.
    assert (E : dget str_eq_dec ids c = Some x) by (apply (ba_iff _ _ _ _ _ B); exact H). split; [|exact E]. apply (ba_shown _ _ _ _ _ B). apply (dget_Some_key str_eq_dec). eauto.
  Qed.
  Lemma id_inj a b x : dget str_eq_dec ids a = Some x -> dget str_eq_dec ids b = Some x -> a = b.
  Proof. intros Ha Hb. apply (ba_iff _ _ _ _ _ B) in Ha, Hb. congruence. Qed.
  Lemma id_mem_node a x : dget str_eq_dec ids a = Some x -> dmem N.eq_dec nodes x = true.
  Proof. intros H. apply (ba_iff _ _ _ _ _ B) in H. unfold dmem. rewrite H. reflexivity. Qed.
  Lemma id_shown a x : dget str_eq_dec ids a = Some x -> In a (shown_names log p).
  Proof. intros H. apply (ba_shown _ _ _ _ _ B). apply (dget_Some_key str_eq_dec). eauto. Qed.
  Lemma id_eqb a b x y : dget str_eq_dec ids a = Some x -> dget str_eq_dec ids b = Some y -> N.eqb x y = str_eqb a b.
  Proof.
    intros Ha Hb. destruct (str_eqb a b) eqn:E.
    - apply str_eqb_eq in E. subst b. rewrite Ha in Hb. injection Hb as ->. apply N.eqb_refl.
    - apply N.eqb_neq. intros ->. rewrite (id_inj a b y Ha Hb) in E. rewrite (proj2 (str_eqb_eq b b) eq_refl) in E. discriminate.
  Qed.

  Record estate (k : pystr -> pystr -> bool) (g : fgraph) : Prop := {
    es_tidy : ftidy g;
    es_nodes : fg_nodes g = nodes;
    es_ends : forall x y, fedge g x y <> None -> In x (dkeys nodes) /\ In y (dkeys nodes);
    es_edges : forall a b x y, dget str_eq_dec ids a = Some x -> dget str_eq_dec ids b = Some y ->
      fedge g x y = if k a b then Some (Some (num (follows log a b))) else None }.
  Lemma estate_ext k k' g : (forall a b, In a (shown_names log p) -> In b (shown_names log p) -> k a b = k' a b) -> estate k g -> estate k' g.
  Proof.
    intros H [H1 H2 H3 H4]. split; auto. intros a b x y Ha Hb. rewrite <- (H a b); [auto|eapply id_shown; eauto|eapply id_shown; eauto].
  Qed.
  Lemma estate_connected k g a b x y : estate k g -> dget str_eq_dec ids a = Some x -> dget str_eq_dec ids b = Some y -> fg_connected g x y = k a b.
  Proof. intros H Ha Hb. rewrite fg_connected_fedge, (es_edges _ _ H a b x y Ha Hb). destruct (k a b); reflexivity. Qed.
  Lemma estate_connect k g a b x y : estate k g -> dget str_eq_dec ids a = Some x -> dget str_eq_dec ids b = Some y ->
    estate (fun a' b' => k a' b' || peqb a b a' b') (fg_connect g x y (Some (num (follows log a b)))).
  Proof.
    intros H Ha Hb. destruct (fconnect_tidy g x y (Some (num (follows log a b))) (es_tidy _ _ H)) as [T En].
    assert (Hx := id_mem_node _ _ Ha). assert (Hy := id_mem_node _ _ Hb).
    assert (F : forall u v, fedge (fg_connect g x y (Some (num (follows log a b)))) u v = if N.eqb u x && N.eqb v y && negb (fg_connected g x y) then Some (Some (num (follows log a b))) else fedge g u v).
    { intros u v. apply fconnect_fedge; rewrite (es_nodes _ _ H); assumption. }
    split; [exact T|rewrite En; apply (es_nodes _ _ H)| |].
    - intros u v. rewrite F. destruct (N.eqb u x && N.eqb v y && negb (fg_connected g x y)) eqn:E; [|apply (es_ends _ _ H)]. intros _.
      apply andb_true_iff in E. destruct E as [E _]. apply andb_true_iff in E. destruct E as [E1 E2]. apply N.eqb_eq in E1, E2. subst u v. split; apply (dmem_In N.eq_dec); assumption.
    - intros a' b' u v Hu Hv. rewrite F, (id_eqb a' a u x Hu Ha), (id_eqb b' b v y Hv Hb), (estate_connected k g a b x y H Ha Hb), (es_edges _ _ H a' b' u v Hu Hv). unfold peqb.
      destruct (str_eqb a' a && str_eqb b' b) eqn:E; [|rewrite orb_false_r; reflexivity]. apply andb_true_iff in E. destruct E as [E1 E2]. apply str_eqb_eq in E1, E2. subst a' b'.
      destruct (k a b); reflexivity.
  Qed.
  Lemma estate_disconnect k g a b x y : estate k g -> dget str_eq_dec ids a = Some x -> dget str_eq_dec ids b = Some y ->
    estate (fun a' b' => k a' b' && negb (peqb a b a' b')) (fg_disconnect g x y).
  Proof.
    intros H Ha Hb. destruct (fdisconnect_tidy g x y (es_tidy _ _ H)) as [T En].
    assert (F := fun u v => fdisconnect_fedge g x y u v (es_tidy _ _ H)).
    split; [exact T|rewrite En; apply (es_nodes _ _ H)| |].
    - intros u v. rewrite F. destruct (N.eqb u x && N.eqb v y); [congruence|apply (es_ends _ _ H)].
    - intros a' b' u v Hu Hv. rewrite F, (id_eqb a' a u x Hu Ha), (id_eqb b' b v y Hv Hb), (es_edges _ _ H a' b' u v Hu Hv). unfold peqb.
      destruct (str_eqb a' a && str_eqb b' b); cbn [negb]; rewrite ?andb_false_r, ?andb_true_r; reflexivity.
  Qed.

  (** ** The first edges *)
  Variable ord : nat -> forall A : Type, list A -> list A.
  Hypothesis O : any_order ord.
  Let info := r_create_from ord (names_of log) false None.
  Definition often (a b : pystr) : bool := Qlt_bool (fp_binary p) (num (follows log a b)).
  Lemma first_loop l : (forall ab, In ab l -> In (fst ab) (shown_names log p) /\ In (snd ab) (shown_names log p)) -> forall k g, estate k g ->
    exists g', loopM (fun g ab =>
            let sig := binary_significance info (fst ab) (snd ab) in
            if Qlt_bool (fp_binary p) sig then
              bind (class_id ids (fst ab)) (fun x => bind (class_id ids (snd ab)) (fun y => Ok (fg_connect g x y (Some sig))))
            else Ok g) l g = Ok g' /\ estate (fun a b => k a b || (pmem (a, b) l && often a b)) g'.
  Proof.
    induction l as [|[a b] l IH]; intros Hl k g H.
    - exists g. split; [reflexivity|]. revert H. apply estate_ext. intros a b _ _. cbn. rewrite orb_false_r. reflexivity.
    - destruct (Hl (a, b)) as [Ha Hb]; [left; reflexivity|]. cbn [fst snd] in Ha, Hb. rewrite loopM_cons. cbn [fst snd]. cbn zeta.
      unfold info. rewrite binary_proof by exact O. fold info.
      assert (K : forall k', (forall a' b', k' a' b' = k a' b' || (peqb a b a' b' && often a b)) -> forall g0, estate k' g0 ->
        exists g', loopM (fun g ab =>
            let sig := binary_significance info (fst ab) (snd ab) in
            if Qlt_bool (fp_binary p) sig then
              bind (class_id ids (fst ab)) (fun x => bind (class_id ids (snd ab)) (fun y => Ok (fg_connect g x y (Some sig))))
            else Ok g) l g0 = Ok g' /\ estate (fun a' b' => k a' b' || (pmem (a', b') ((a, b) :: l) && often a' b')) g').
      { intros k' Hk g0 H0. destruct (IH (fun ab H' => Hl ab (or_intror H')) k' g0 H0) as (g' & E & H'). exists g'. split; [exact E|]. revert H'. apply estate_ext.
        intros a' b' _ _. rewrite Hk. rewrite <- orb_assoc. f_equal.
        destruct (peqb a b a' b') eqn:E'.
        - apply peqb_iff in E'. destruct E' as [-> ->]. assert (M : pmem (a, b) ((a, b) :: l) = true) by (apply pmem_In; left; reflexivity). rewrite M. cbn [andb]. destruct (pmem (a, b) l), (often a b); reflexivity.
        - assert (M : pmem (a', b') ((a, b) :: l) = pmem (a', b') l).
          { apply Bool.eq_true_iff_eq. rewrite !pmem_In. split; [intros [Eq|?]; [|assumption]|right; assumption]. injection Eq as -> ->. rewrite (proj2 (peqb_iff a' b' a' b')) in E' by auto. discriminate. }
          rewrite M. reflexivity. }
      fold (often a b). destruct (often a b) eqn:Eo.
      + destruct (id_of a Ha) as (x & Ex). destruct (id_of b Hb) as (y & Ey). unfold class_id at 1 2. rewrite Ex. cbn [bind]. rewrite Ey. cbn [bind].
        apply (K (fun a' b' => k a' b' || peqb a b a' b')); [intros a' b'; rewrite andb_true_r; reflexivity|]. apply estate_connect; assumption.
      + cbn [bind]. apply (K k); [intros a' b'; rewrite andb_false_r, orb_false_r; reflexivity|exact H].
  Qed.
  Lemma often_first a b : In a (shown_names log p) -> In b (shown_names log p) -> often a b = true <-> first_edge log p a b.
  Proof. intros Ha Hb. unfold often, first_edge. rewrite Qlt_bool_iff. tauto. Qed.

  (** ** Conflicts *)
  Variable names : list pystr.
  Hypothesis Pn : Permutation names (shown_names log p).
  Hypothesis R0 : (0 <= fp_ratio p)%Q.
  Definition rs (a b : pystr) : option Q := relative_significance info names a b.
  Definition conf (a b : pystr) : bool := often a b && often b a && (less (rs a b) (fp_preserve p) || less (rs b a) (fp_preserve p)).
  Definition winb (a b : pystr) : bool := match rs a b, rs b a with Some u, Some v => Qlt_bool (v + fp_ratio p)%Q u | _, _ => false end.
  Definition keep (a b : pystr) : bool := negb (conf a b) || winb a b.
  Lemma less_weak a b : less (rs a b) (fp_preserve p) = true <-> weak log p a b.
  Proof.
    unfold less, weak. assert (H := relative_proof ord O log p names a b Pn). fold info in H. fold (rs a b) in H. destruct (rs a b) as [v|].
    - rewrite Qlt_bool_iff. split; [intros L; exists v; auto|]. intros (u & Hu & L). rewrite (share_eq log p a b v u H Hu). exact L.
    - split; [discriminate|]. intros (u & Hu & _). destruct (H u Hu).
  Qed.
  Lemma winb_wins a b : winb a b = true <-> wins log p a b.
  Proof.
    unfold winb, wins. assert (H := relative_proof ord O log p names a b Pn). assert (H' := relative_proof ord O log p names b a Pn).
    fold info in H, H'. fold (rs a b) in H. fold (rs b a) in H'. destruct (rs a b) as [u|], (rs b a) as [v|].
    - rewrite Qlt_bool_iff. split; [intros L; exists u, v; auto|]. intros (u' & v' & Hu & Hv & L). rewrite (share_eq log p a b u u' H Hu), (share_eq log p b a v v' H' Hv). exact L.
    - split; [discriminate|]. intros (u' & v' & _ & Hv & _). destruct (H' v' Hv).
    - split; [discriminate|]. intros (u' & v' & Hu & _). destruct (H u' Hu).
    - split; [discriminate|]. intros (u' & v' & Hu & _). destruct (H u' Hu).
  Qed.
  Lemma keep_second a b : In a (shown_names log p) -> In b (shown_names log p) -> often a b && keep a b = true <-> second_edge log p a b.
  Proof.
    intros Ha Hb. unfold second_edge, keep. rewrite andb_true_iff, orb_true_iff, negb_true_iff, winb_wins, (often_first a b Ha Hb).
    assert (C : conf a b = true <-> conflict log p a b).
    { unfold conf, conflict. rewrite !andb_true_iff, orb_true_iff, !less_weak, (often_first a b Ha Hb), (often_first b a Hb Ha). tauto. }
    split; intros [H1 H2]; (split; [exact H1|]).
    - destruct H2 as [H2|H2]; [|auto]. intros H. apply C in H. congruence.
    - destruct (conf a b) eqn:E; [right; apply H2, C; reflexivity|left; reflexivity].
  Qed.
  Definition seen (l : list (pystr * pystr)) (a b : pystr) : bool := pmem (a, b) l || pmem (b, a) l.
  Definition left_over (l : list (pystr * pystr)) (a b : pystr) : bool := often a b && (if seen l a b then keep a b else true).
  Lemma conf_sym a b : conf a b = conf b a.
  Proof. unfold conf. destruct (often a b), (often b a), (less (rs a b) (fp_preserve p)), (less (rs b a) (fp_preserve p)); reflexivity. Qed.
  Lemma take_away_proof l g a b x y : estate (left_over l) g -> dget str_eq_dec ids a = Some x -> dget str_eq_dec ids b = Some y ->
    left_over l a b = true -> left_over l b a = true ->
    estate (fun a' b' => left_over l a' b' && (if peqb a b a' b' || peqb b a a' b' then keep a' b' else true)) (take_away p (rs a b) (rs b a) x y g).
  Proof.
    intros H Ha Hb L1 L2. unfold take_away.
    assert (Oab : often a b = true) by (unfold left_over in L1; apply andb_true_iff in L1; apply L1).
    assert (Oba : often b a = true) by (unfold left_over in L2; apply andb_true_iff in L2; apply L2).
    assert (Cf : conf a b = less (rs a b) (fp_preserve p) || less (rs b a) (fp_preserve p)) by (unfold conf; rewrite Oab, Oba; reflexivity).
    assert (Cf' := conf_sym b a). rewrite Cf in Cf'.
    (* what is needed of keep on the two pairs *)
    assert (G : forall k g', (forall a' b', k a' b' = left_over l a' b' && (if peqb a b a' b' then k a b else true) && (if peqb b a a' b' then k b a else true)) ->
      k a b = keep a b -> k b a = keep b a -> estate k g' ->
      estate (fun a' b' => left_over l a' b' && (if peqb a b a' b' || peqb b a a' b' then keep a' b' else true)) g').
    { intros k g' Hk K1 K2. apply estate_ext. intros a' b' _ _. rewrite Hk. destruct (peqb a b a' b') eqn:E1.
      - apply peqb_iff in E1. destruct E1 as [-> ->]. cbn [orb]. rewrite K1. destruct (peqb b a a b) eqn:E2; [|rewrite andb_true_r; reflexivity].
        apply peqb_iff in E2. destruct E2 as [-> _]. rewrite K1. destruct (left_over l b b), (keep b b); reflexivity.
      - destruct (peqb b a a' b') eqn:E2; cbn [orb]; rewrite andb_true_r; [|rewrite andb_true_r; reflexivity]. apply peqb_iff in E2. destruct E2 as [-> ->]. rewrite K2. reflexivity. }
    assert (Pab : peqb a b a b = true) by (apply peqb_iff; auto). assert (Pba : peqb b a b a = true) by (apply peqb_iff; auto).
    assert (Kboth : estate (fun a' b' => left_over l a' b' && negb (peqb a b a' b') && negb (peqb b a a' b')) (fg_disconnect (fg_disconnect g x y) y x)).
    { apply estate_disconnect; [|exact Hb|exact Ha]. apply estate_disconnect; assumption. }
    assert (Kfirst := estate_disconnect _ _ a b x y H Ha Hb). assert (Ksecond := estate_disconnect _ _ b a y x H Hb Ha).
    assert (Gboth : winb a b = false -> winb b a = false -> less (rs a b) (fp_preserve p) || less (rs b a) (fp_preserve p) = true ->
      estate (fun a' b' => left_over l a' b' && (if peqb a b a' b' || peqb b a a' b' then keep a' b' else true)) (fg_disconnect (fg_disconnect g x y) y x)).
    { intros W1 W2 W. eapply G; [| | |exact Kboth].
      - intros a' b'. cbn beta. rewrite Pab, Pba. destruct (left_over l a' b'), (peqb a b a' b'), (peqb b a a' b'); cbn; rewrite ?andb_false_r; reflexivity.
      - cbn beta. rewrite Pab. unfold keep. rewrite Cf, W, W1. cbn [negb orb]. rewrite andb_false_r. reflexivity.
      - cbn beta. rewrite Pba. unfold keep. rewrite Cf', W, W2. cbn [negb orb]. rewrite !andb_false_r. reflexivity. }
    destruct (less (rs a b) (fp_preserve p) || less (rs b a) (fp_preserve p)) eqn:W.
    2:{ eapply G; [| | |exact H].
        - intros a' b'. rewrite L1, L2. destruct (peqb a b a' b'), (peqb b a a' b'); rewrite ?andb_true_r; reflexivity.
        - rewrite L1. unfold keep. rewrite Cf. reflexivity.
        - rewrite L2. unfold keep. rewrite Cf'. reflexivity. }
    assert (Wab : winb a b = match rs a b, rs b a with Some u, Some v => Qlt_bool (v + fp_ratio p)%Q u | _, _ => false end) by reflexivity.
    assert (Wba : winb b a = match rs b a, rs a b with Some u, Some v => Qlt_bool (v + fp_ratio p)%Q u | _, _ => false end) by reflexivity.
    destruct (rs a b) as [u|] eqn:Eu, (rs b a) as [v|] eqn:Ev; try (apply Gboth; auto; fail).
    assert (No : forall x y : Q, (x <= y)%Q -> Qlt_bool (y + fp_ratio p) x = false).
    { intros s t L. destruct (Qlt_bool (t + fp_ratio p) s) eqn:E; [|reflexivity]. apply Qlt_bool_iff in E. lra. }
    destruct (Qlt_bool (fp_ratio p) (if Qle_bool v u then u - v else v - u)%Q) eqn:Er.
    - apply Qlt_bool_iff in Er.
      assert (Nab : a <> b). { intros ->. rewrite Eu in Ev. injection Ev as <-. destruct (Qle_bool u u); lra. }
      assert (Pab' : peqb a b b a = false). { destruct (peqb a b b a) eqn:E; [|reflexivity]. apply peqb_iff in E. destruct E; congruence. }
      assert (Pba' : peqb b a a b = false). { destruct (peqb b a a b) eqn:E; [|reflexivity]. apply peqb_iff in E. destruct E; congruence. }
      destruct (Qlt_bool u v) eqn:El.
      + apply Qlt_bool_iff in El. assert (Ed : Qle_bool v u = false) by (apply Qle_bool_no; exact El). rewrite Ed in Er.
        eapply G; [| | |exact Kfirst].
        * intros a' b'. cbn beta. rewrite Pab, Pab', L2. destruct (left_over l a' b'), (peqb a b a' b'), (peqb b a a' b'); cbn; rewrite ?andb_false_r; reflexivity.
        * cbn beta. rewrite Pab, andb_false_r. unfold keep. rewrite Cf, Wab, No by lra. reflexivity.
        * cbn beta. rewrite Pab', L2. unfold keep. rewrite Wba. symmetry. cbn [negb andb]. apply orb_true_iff. right. apply Qlt_bool_iff. lra.
      + assert (El' : (v <= u)%Q) by (apply Qnot_lt_le; intros L; apply Qlt_bool_iff in L; congruence).
        assert (Ed : Qle_bool v u = true) by (apply Qle_bool_iff; exact El'). rewrite Ed in Er.
        eapply G; [| | |exact Ksecond].
        * intros a' b'. cbn beta. rewrite Pba, Pba', L1. destruct (left_over l a' b'), (peqb a b a' b'), (peqb b a a' b'); cbn; rewrite ?andb_false_r; reflexivity.
        * cbn beta. rewrite Pba', L1. unfold keep. rewrite Wab. symmetry. cbn [negb andb]. apply orb_true_iff. right. apply Qlt_bool_iff. lra.
        * cbn beta. rewrite Pba, andb_false_r. unfold keep. rewrite Cf', Wba, No by lra. reflexivity.
    - assert (Hd : (u <= v + fp_ratio p /\ v <= u + fp_ratio p)%Q).
      { assert (L : ~ (fp_ratio p < (if Qle_bool v u then u - v else v - u))%Q) by (intros L; apply Qlt_bool_iff in L; congruence). apply Qnot_lt_le in L.
        destruct (Qle_bool v u) eqn:Ed; [apply Qle_bool_iff in Ed|apply Qle_bool_no in Ed]; split; lra. }
      apply Gboth; [rewrite Wab|rewrite Wba|reflexivity]; match goal with |- ?q = false => destruct q eqn:E; [apply Qlt_bool_iff in E; lra|reflexivity] end.
  Qed.
  Lemma left_over_ext l l' a b : (forall ab, In ab l <-> In ab l') -> left_over l a b = left_over l' a b.
  Proof.
    intros H. assert (M : forall ab, pmem ab l = pmem ab l') by (intros ab; apply Bool.eq_true_iff_eq; rewrite !pmem_In; apply H).
    unfold left_over, seen. rewrite !M. reflexivity.
  Qed.
  Lemma resolve_step done g a b x y : estate (left_over done) g -> dget str_eq_dec ids a = Some x -> dget str_eq_dec ids b = Some y ->
    estate (left_over ((a, b) :: done)) (if bi_connected g x y then take_away p (rs a b) (rs b a) x y g else g).
  Proof.
    intros H Ha Hb. unfold bi_connected. rewrite (estate_connected _ _ a b x y H Ha Hb), (estate_connected _ _ b a y x H Hb Ha).
    assert (S : forall a' b', seen ((a, b) :: done) a' b' = (peqb a b a' b' || peqb b a a' b') || seen done a' b').
    { intros a' b'. apply Bool.eq_true_iff_eq. unfold seen. rewrite !orb_true_iff, !pmem_In, !peqb_iff. cbn [In].
      split; intros HH; intuition (try congruence); try (match goal with E : (_, _) = (_, _) |- _ => injection E as -> ->; auto end); subst; auto. }
    destruct (left_over done a b && left_over done b a) eqn:E.
    - apply andb_true_iff in E. destruct E as [L1 L2]. generalize (take_away_proof done g a b x y H Ha Hb L1 L2). apply estate_ext. intros a' b' _ _.
      unfold left_over. rewrite S. destruct (often a' b'); [|reflexivity]. cbn [andb]. destruct (peqb a b a' b' || peqb b a a' b'); cbn [orb].
      + destruct (seen done a' b'), (keep a' b'); reflexivity.
      + rewrite andb_true_r. reflexivity.
    - revert H. apply estate_ext. intros a' b' _ _. destruct (peqb a b a' b' || peqb b a a' b') eqn:P; [|unfold left_over; rewrite S, P; reflexivity].
      assert (K : forall c d, left_over done c d && left_over done d c = false -> left_over done c d = left_over ((a, b) :: done) c d \/ seen ((a, b) :: done) c d = false).
      { intros c d. unfold left_over. destruct (seen ((a, b) :: done) c d); [|auto]. intros F. left.
        assert (S2 : seen done d c = seen done c d) by (unfold seen; apply orb_comm). rewrite S2 in F. assert (Cs := conf_sym c d).
        unfold keep in *. unfold conf in *. destruct (often c d), (often d c); cbn [andb negb orb] in *; rewrite ?andb_true_r, ?andb_false_r in *; try reflexivity; destruct (seen done c d); try reflexivity; try discriminate. }
      apply orb_true_iff in P. assert (P' : a' = a /\ b' = b \/ a' = b /\ b' = a) by (rewrite <- !peqb_iff; exact P).
      assert (Sn : seen ((a, b) :: done) a' b' = true) by (rewrite S; apply orb_true_iff; left; apply orb_true_iff; exact P).
      destruct P' as [[-> ->]|[-> ->]].
      + destruct (K a b E) as [K'|K']; [exact K'|congruence].
      + rewrite andb_comm in E. destruct (K b a E) as [K'|K']; [exact K'|congruence].
  Qed.
  Variable ndord : forall A : Type, list A -> list A.
  Hypothesis Hnames : mapM (fun nd : N * option pystr => match snd nd with Some n => Ok n | None => rpanic end) (ndord _ nodes) = Ok names.
  Lemma resolve_loop l : (forall ab, In ab l -> In (fst ab) (shown_names log p) /\ In (snd ab) (shown_names log p)) -> forall done g, estate (left_over done) g ->
    exists g', loopM (fun g ab =>
      bind (class_id ids (fst ab)) (fun x => bind (class_id ids (snd ab)) (fun y =>
      if bi_connected g x y then
        bind (mapM (fun nd => match snd nd with Some n => Ok n | None => rpanic end) (ndord _ (fg_nodes g))) (fun names =>
        Ok (take_away p (relative_significance info names (fst ab) (snd ab)) (relative_significance info names (snd ab) (fst ab)) x y g))
      else Ok g))) l g = Ok g' /\ estate (left_over (rev l ++ done)) g'.
  Proof.
    induction l as [|[a b] l IH]; intros Hl done g H; [exists g; auto|].
    destruct (Hl (a, b)) as [Ha Hb]; [left; reflexivity|]. cbn [fst snd] in Ha, Hb. rewrite loopM_cons. cbn [fst snd].
    destruct (id_of a Ha) as (x & Ex). destruct (id_of b Hb) as (y & Ey). unfold class_id at 1 2. rewrite Ex. cbn [bind]. rewrite Ey. cbn [bind].
    assert (H' := resolve_step done g a b x y H Ex Ey). rewrite (es_nodes _ _ H), Hnames. cbn [bind]. fold (rs a b) (rs b a).
    destruct (IH (fun ab K => Hl ab (or_intror K)) _ _ H') as (g' & E & H2). exists g'. cbn [rev]. rewrite <- app_assoc. split; [|exact H2].
    destruct (bi_connected g x y); cbn [bind]; exact E.
  Qed.
End Edges.
