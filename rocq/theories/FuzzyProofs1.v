(** Proofs about the fuzzy miner: graphs, counts, times and shares. *)
From Coq Require Import QArith Permutation Lqa.
From Verif Require Import Py PyFacts InfoModel InfoSpec InfoProofs ReplayModel RInfoModel RInfoSpec RInfoProofs AlphaModel HeurModel HeurSpec HeurProofs2 FuzzyModel FuzzySpec.
Open Scope nat_scope.

(** ** Graphs *)
Definition ftidy (g : fgraph) : Prop :=
  NoDup (dkeys (fg_connections g)) /\ forall a c, dget N.eq_dec (fg_connections g) a = Some c -> NoDup (dkeys c).
Lemma fg_connected_fedge g a b : fg_connected g a b = match fedge g a b with Some _ => true | None => false end.
Proof. unfold fg_connected, fedge, entry, dmem. destruct (dget N.eq_dec (fg_connections g) a); reflexivity. Qed.
Lemma fconnect_fedge g a b d x y : dmem N.eq_dec (fg_nodes g) a = true -> dmem N.eq_dec (fg_nodes g) b = true ->
  fedge (fg_connect g a b d) x y = if N.eqb x a && N.eqb y b && negb (fg_connected g a b) then Some d else fedge g x y.
Proof.
  intros Ha Hb. unfold fg_connect. destruct (fg_connected g a b) eqn:Ec; [rewrite !andb_false_r; reflexivity|]. rewrite Ha, Hb, andb_true_r. cbn [andb].
  destruct (dget N.eq_dec (fg_connections g) a) as [c|] eqn:E; unfold fedge; cbn [fg_connections]; unfold entry; rewrite dget_dset.
  - destruct (N.eq_dec a x) as [<-|Hx].
    + rewrite E, N.eqb_refl, dget_dset. cbn [andb]. destruct (N.eq_dec b y) as [<-|Hy]; [rewrite N.eqb_refl; reflexivity|].
      destruct (N.eqb_spec y b); [congruence|reflexivity].
    + destruct (N.eqb_spec x a); [congruence|reflexivity].
  - destruct (N.eq_dec a x) as [<-|Hx].
    + rewrite E, N.eqb_refl. cbn [dget andb]. destruct (N.eq_dec y b) as [<-|Hy]; [rewrite N.eqb_refl; reflexivity|].
      destruct (N.eqb_spec y b); [congruence|reflexivity].
    + destruct (N.eqb_spec x a); [congruence|reflexivity].
Qed.
Lemma fconnect_tidy g a b d : ftidy g -> ftidy (fg_connect g a b d) /\ fg_nodes (fg_connect g a b d) = fg_nodes g.
Proof.
  intros [H1 H2]. unfold fg_connect. destruct (fg_connected g a b); [split; [split; assumption|reflexivity]|].
  destruct (_ && _); [|split; [split; assumption|reflexivity]].
  destruct (dget N.eq_dec (fg_connections g) a) as [c|] eqn:E; (split; [split|reflexivity]); cbn [fg_connections]; try (apply dset_NoDup; assumption);
    intros a' c' H; rewrite dget_dset in H; destruct (N.eq_dec a a'); try (eapply H2; eassumption); injection H as <-.
  - apply dset_NoDup. eapply H2; eauto.
  - repeat constructor; intros [].
Qed.
Lemma fdisconnect_fedge g a b x y : ftidy g ->
  fedge (fg_disconnect g a b) x y = if N.eqb x a && N.eqb y b then None else fedge g x y.
Proof.
  intros [H1 H2]. unfold fg_disconnect, fedge. destruct (dget N.eq_dec (fg_connections g) a) as [c|] eqn:E; cbn [fg_connections].
  - unfold entry. rewrite dget_dset. destruct (N.eq_dec a x) as [<-|Hx].
    + rewrite E, N.eqb_refl. cbn [andb]. rewrite dget_ddel by (eapply H2; eauto). destruct (N.eq_dec b y) as [<-|Hy]; [rewrite N.eqb_refl; reflexivity|]. destruct (N.eqb_spec y b); [congruence|reflexivity].
    + destruct (N.eqb_spec x a); [congruence|reflexivity].
  - destruct (N.eqb_spec x a) as [->|Hx]; [|reflexivity]. unfold entry. rewrite E. destruct (N.eqb y b); reflexivity.
Qed.
Lemma fdisconnect_tidy g a b : ftidy g -> ftidy (fg_disconnect g a b) /\ fg_nodes (fg_disconnect g a b) = fg_nodes g.
Proof.
  intros [H1 H2]. unfold fg_disconnect. destruct (dget N.eq_dec (fg_connections g) a) as [c|] eqn:E; [|split; [split; assumption|reflexivity]].
  split; [split|reflexivity]; cbn [fg_connections]; [apply dset_NoDup; exact H1|]. intros a' c' H. rewrite dget_dset in H. destruct (N.eq_dec a a'); [|eapply H2; eassumption].
  injection H as <-. apply ddel_NoDup. eapply H2; eauto.
Qed.
Lemma fg_edges_In g x y : ftidy g -> (In (x, y) (fg_edges g) <-> fedge g x y <> None).
Proof.
  intros [H1 H2]. unfold fg_edges, fedge, entry. rewrite in_flat_map. split.
  - intros ([x' c] & Hc & H). apply in_map_iff in H. destruct H as ([y' d'] & E & H). cbn [fst snd] in E, H. injection E as -> ->.
    assert (Hx : dget N.eq_dec (fg_connections g) x = Some c) by (apply In_dget; assumption). rewrite Hx.
    rewrite (In_dget N.eq_dec c y d'); [discriminate|eapply H2; eauto|exact H].
  - destruct (dget N.eq_dec (fg_connections g) x) as [c|] eqn:E; [|congruence]. destruct (dget N.eq_dec c y) as [d|] eqn:Ed; [|congruence]. intros _. exists (x, c). split; [eapply dget_In; eauto|].
    apply in_map_iff. exists (y, d). split; [reflexivity|]. eapply dget_In; eauto.
Qed.
Lemma fg_outgoing_In g x y : In y (fg_outgoing g x) <-> fedge g x y <> None.
Proof.
  unfold fg_outgoing, fedge, entry. destruct (dget N.eq_dec (fg_connections g) x) as [c|]; [|split; [intros []|congruence]]. rewrite (dget_Some_key N.eq_dec).
  destruct (dget N.eq_dec c y); split; intros H; try congruence; eauto. destruct H; discriminate.
Qed.
Lemma fg_incoming_In g x y : ftidy g -> (In x (fg_incoming g y) <-> fedge g x y <> None).
Proof.
  intros [H1 _]. unfold fg_incoming, fedge, entry. rewrite in_map_iff. split.
  - intros ([x' c] & E & H). cbn in E. subst x'. apply filter_In in H. destruct H as [H Hm]. cbn [snd] in Hm. assert (Hx : dget N.eq_dec (fg_connections g) x = Some c) by (apply In_dget; assumption).
    rewrite Hx. unfold dmem in Hm. destruct (dget N.eq_dec c y); [discriminate|discriminate].
  - destruct (dget N.eq_dec (fg_connections g) x) as [c|] eqn:E; [|congruence]. intros Hm. exists (x, c). split; [reflexivity|]. apply filter_In. split; [eapply dget_In; eauto|].
    cbn [snd]. unfold dmem. destruct (dget N.eq_dec c y); congruence.
Qed.
Lemma fg_all_connected_In g x y : ftidy g -> (In y (fg_all_connected g x) <-> fedge g x y <> None \/ fedge g y y <> None).
Proof.
  intros T. unfold fg_all_connected. rewrite in_app_iff, fg_outgoing_In. destruct T as [H1 _]. apply or_iff_compat_l. unfold fedge, entry. rewrite in_map_iff. split.
  - intros ([x' c] & E & H). cbn in E. subst x'. apply filter_In in H. destruct H as [H Hm]. cbn [snd fst] in Hm. assert (Hx : dget N.eq_dec (fg_connections g) y = Some c) by (apply In_dget; assumption).
    rewrite Hx. unfold dmem in Hm. destruct (dget N.eq_dec c y); [discriminate|discriminate].
  - destruct (dget N.eq_dec (fg_connections g) y) as [c|] eqn:E; [|congruence]. intros Hm. exists (y, c). split; [reflexivity|]. apply filter_In. split; [eapply dget_In; eauto|].
    cbn [snd fst]. unfold dmem. destruct (dget N.eq_dec c y); congruence.
Qed.
Lemma id_mem_In x s : id_mem x s = true <-> In x s.
Proof. unfold id_mem. destruct (in_dec N.eq_dec x s); split; intros; auto; discriminate. Qed.
Lemma id_mem_no x s : id_mem x s = false <-> ~ In x s.
Proof. rewrite <- id_mem_In. destruct (id_mem x s); split; congruence. Qed.
Lemma id_add_In s x y : In y (id_add s x) <-> In y s \/ y = x.
Proof.
  unfold id_add. destruct (id_mem x s) eqn:E.
  - apply id_mem_In in E. split; [auto|]. intros [H| ->]; assumption.
  - rewrite in_app_iff. cbn [In]. split; (intros [H|H]; [auto|]); [destruct H as [->|[]]; auto|subst; auto].
Qed.
Lemma id_add_NoDup s x : NoDup s -> NoDup (id_add s x).
Proof.
  intros H. unfold id_add. destruct (id_mem x s) eqn:E; [exact H|]. apply id_mem_no in E. apply (Permutation_NoDup (l := x :: s)); [apply Permutation_cons_append|]. constructor; assumption.
Qed.
Lemma id_adds_In l : forall s y, In y (fold_left id_add l s) <-> In y s \/ In y l.
Proof. induction l as [|x l IH]; intros s y; cbn [fold_left In]; [tauto|]. rewrite IH, id_add_In. split; intros; intuition congruence. Qed.
Lemma id_adds_NoDup l : forall s, NoDup s -> NoDup (fold_left id_add l s).
Proof. induction l as [|x l IH]; intros s H; cbn [fold_left]; [exact H|]. apply IH, id_add_NoDup, H. Qed.

(** ** Numbers *)
Lemma inject_plus x y : (inject_Z x + inject_Z y = inject_Z (x + y))%Q.
Proof. unfold Qplus, inject_Z. cbn [Qnum Qden]. rewrite !Z.mul_1_r. reflexivity. Qed.
Lemma num_plus x y : (num x + num y = num (x + y))%Q.
Proof. unfold num. rewrite inject_plus, Nat2Z.inj_add. reflexivity. Qed.
Lemma num_qn n : qn n = num n.
Proof. reflexivity. Qed.
Lemma num_0 n : (num n == 0)%Q <-> n = 0.
Proof. unfold num, Qeq, inject_Z. cbn [Qnum Qden]. lia. Qed.
Lemma num_pos n : n <> 0 -> (0 < num n)%Q.
Proof. intros H. unfold num, Qlt, inject_Z. cbn [Qnum Qden]. lia. Qed.
Lemma num_nonneg n : (0 <= num n)%Q.
Proof. unfold num, Qle, inject_Z. cbn [Qnum Qden]. lia. Qed.
Lemma sum_fold (f : pystr -> nat) l : forall s, fold_left (fun s n => (s + qn (f n))%Q) l (num s) = num (s + list_sum (map f l)).
Proof.
  induction l as [|x l IH]; intros s; cbn [fold_left map].
  - change (list_sum []) with 0. rewrite Nat.add_0_r. reflexivity.
  - change (list_sum (f x :: map f l)) with (f x + list_sum (map f l)). change (qn (f x)) with (num (f x)). rewrite num_plus, IH, Nat.add_assoc. reflexivity.
Qed.
Lemma sum_perm (f : pystr -> nat) l l' : Permutation l l' -> list_sum (map f l) = list_sum (map f l').
Proof.
  intros H. apply (Permutation_map f) in H. revert H. generalize (map f l) (map f l'). intros u v H. induction H; cbn [list_sum fold_right] in *; auto; unfold list_sum in *; cbn [fold_right]; lia.
Qed.
Lemma list_sum_0 l : list_sum l = 0 <-> forall x, In x l -> x = 0.
Proof.
  unfold list_sum. induction l as [|x l IH]; cbn [fold_right In]; [split; [intros _ ? []|reflexivity]|]. split.
  - intros H y [<-|Hy]; [lia|]. apply IH; [lia|exact Hy].
  - intros H. rewrite (H x) by auto. cbn. apply IH. intros y Hy. apply H. auto.
Qed.

(** ** Times *)
Definition pending (a b : pystr) (last : option Z) (t : list (pystr * Z)) : list Z :=
  (match last with
   | Some f => match find (fun y => str_eqb (fst y) a || str_eqb (fst y) b) t with
               | Some y => if str_eqb (fst y) a then [] else [(snd y - f)%Z]
               | None => []
               end
   | None => []
   end) ++ gaps a b t.
Lemma proximity_events_proof a b t : forall last z n,
  proximity_events a b t last (inject_Z z, n) = (inject_Z (z + Zsum (pending a b last t)), n + length (pending a b last t)).
Proof.
  induction t as [|[m time] t IH]; intros last z n.
  - unfold pending. cbn. destruct last; cbn; rewrite Z.add_0_r, Nat.add_0_r; reflexivity.
  - cbn [proximity_events]. destruct (str_eqb m a) eqn:Ea.
    + rewrite IH. assert (E : pending a b last ((m, time) :: t) = pending a b (Some time) t).
      { unfold pending. cbn [gaps find fst snd]. rewrite Ea. cbn [orb fst snd]. rewrite Ea. destruct last; reflexivity. }
      rewrite E. reflexivity.
    + assert (G : gaps a b ((m, time) :: t) = gaps a b t) by (cbn [gaps fst snd]; rewrite Ea; reflexivity).
      destruct (str_eqb m b) eqn:Eb.
      * destruct last as [f|]; rewrite ?inject_plus.
        -- cbn [fst snd]. rewrite inject_plus, IH. unfold pending. rewrite G. cbn [find fst snd]. rewrite Ea, Eb. cbn [orb fst snd]. rewrite Ea.
           cbn [app Zsum fold_right length]. f_equal; [f_equal; fold (Zsum (gaps a b t)); lia|lia].
        -- rewrite IH. unfold pending. rewrite G. reflexivity.
      * rewrite IH. assert (E : pending a b last ((m, time) :: t) = pending a b last t).
        { unfold pending. rewrite G. cbn [find fst snd]. rewrite Ea, Eb. reflexivity. }
        rewrite E. reflexivity.
Qed.
Lemma Zsum_app l l' : Zsum (l ++ l') = (Zsum l + Zsum l')%Z.
Proof. unfold Zsum. induction l as [|x l IH]; cbn [app fold_right]; [reflexivity|]. rewrite IH. lia. Qed.
Lemma proximity_proof log a b : proximity_correlation log a b = distance log a b.
Proof.
  unfold proximity_correlation, distance.
  assert (E : forall l z n, fold_left (fun s t => proximity_events a b t None s) l (inject_Z z, n) = (inject_Z (z + Zsum (flat_map (gaps a b) l)), n + length (flat_map (gaps a b) l))).
  { induction l as [|t l IH]; intros z n; cbn [fold_left flat_map].
    - cbn [Zsum fold_right length]. rewrite Z.add_0_r, Nat.add_0_r. reflexivity.
    - rewrite proximity_events_proof. unfold pending. cbn [app]. rewrite IH, Zsum_app, app_length, Z.add_assoc, Nat.add_assoc. reflexivity. }
  change (0%Q, 0) with (inject_Z 0, 0). rewrite E. cbn [fst snd]. destruct (flat_map (gaps a b) log) as [|x l]; reflexivity.
Qed.

(** ** Counts *)
Lemma occurrences_concat log : InfoSpec.occurrences log None = concat log.
Proof.
  unfold InfoSpec.occurrences. induction log as [|t log IH]; [reflexivity|]. cbn [flat_map concat]. rewrite IH. f_equal. unfold kept.
  induction t as [|x t IHt]; [reflexivity|]. cbn [filter]. cbn in IHt |- *. rewrite IHt. reflexivity.
Qed.
Section Counts.
  Variable ord : nat -> forall A : Type, list A -> list A.
  Hypothesis O : any_order ord.
  Variable log : flog.
  Let info := r_create_from ord (names_of log) false None.
  Lemma unary_proof c : unary_significance info c = num (frequency log c).
  Proof. unfold unary_significance, info. destruct (counts_proof ord O (names_of log) false None) as (H & _). rewrite H, occurrences_concat. reflexivity. Qed.
  Lemma binary_proof a b : binary_significance info a b = num (follows log a b).
  Proof. unfold binary_significance, info. destruct (counts_proof ord O (names_of log) false None) as (_ & _ & H & _). rewrite H. reflexivity. Qed.
  Lemma classes_proof k : NoDup (r_all_event_classes ord k info) /\ forall c, In c (r_all_event_classes ord k info) <-> In c (concat (just_names log)).
  Proof. unfold info. destruct (counts_proof ord O (names_of log) false None) as (_ & H & _). destruct (H k) as [H1 H2]. split; [exact H1|]. intros c. rewrite H2, occurrences_concat. reflexivity. Qed.

  Variable p : fparams.
  (** ** Shares *)
  Lemma shown_In c : In c (shown_names log p) <-> In c (concat (just_names log)) /\ (fp_unary p < num (frequency log c))%Q.
  Proof.
    unfold shown_names. rewrite filter_In, nodup_In. destruct (Qlt_le_dec (fp_unary p) (num (frequency log c))) as [H|H]; split; intros [H1 H2]; split; auto; try discriminate.
    exfalso. eapply Qlt_not_le; eassumption.
  Qed.
  Lemma shown_NoDup : NoDup (shown_names log p).
  Proof. unfold shown_names. apply NoDup_filter, NoDup_nodup. Qed.
  Lemma relative_proof names a b : Permutation names (shown_names log p) ->
    match relative_significance info names a b with Some v => share log p a b v | None => forall v, ~ share log p a b v end.
  Proof.
    intros P. unfold relative_significance.
    assert (E1 : fold_left (fun s n => (s + binary_significance info a n)%Q) names 0%Q = num (row log p a)).
    { unfold row. rewrite <- (sum_perm (fun c => follows log a c) _ _ P).
      assert (F : forall l s, fold_left (fun s n => (s + binary_significance info a n)%Q) l (num s) = num (s + list_sum (map (fun c => follows log a c) l))).
      { induction l as [|x l IH]; intros s; cbn [fold_left map]; [change (list_sum []) with 0; rewrite Nat.add_0_r; reflexivity|].
        rewrite binary_proof, num_plus, IH. f_equal. unfold list_sum. cbn [fold_right]. lia. }
      exact (F names 0). }
    assert (E2 : fold_left (fun s n => (s + binary_significance info n b)%Q) names 0%Q = num (col log p b)).
    { unfold col. rewrite <- (sum_perm (fun c => follows log c b) _ _ P).
      assert (F : forall l s, fold_left (fun s n => (s + binary_significance info n b)%Q) l (num s) = num (s + list_sum (map (fun c => follows log c b) l))).
      { induction l as [|x l IH]; intros s; cbn [fold_left map]; [change (list_sum []) with 0; rewrite Nat.add_0_r; reflexivity|].
        rewrite binary_proof, num_plus, IH. f_equal. unfold list_sum. cbn [fold_right]. lia. }
      exact (F names 0). }
    rewrite E1, E2, binary_proof. destruct (Qeq_bool (num (row log p a)) 0) eqn:Er.
    { cbn [orb]. apply Qeq_bool_iff in Er. apply num_0 in Er. intros v (H & _). contradiction. }
    destruct (Qeq_bool (num (col log p b)) 0) eqn:Ec.
    { cbn [orb]. apply Qeq_bool_iff in Ec. apply num_0 in Ec. intros v (_ & H & _). contradiction. }
    cbn [orb]. assert (Hr : row log p a <> 0). { intros H. apply num_0 in H. apply Qeq_bool_iff in H. congruence. }
    assert (Hc : col log p b <> 0). { intros H. apply num_0 in H. apply Qeq_bool_iff in H. congruence. }
    split; [exact Hr|]. split; [exact Hc|]. apply num_pos in Hr, Hc. field. split; intros H; rewrite H in *; eapply Qlt_irrefl; eassumption.
  Qed.
  Lemma share_eq a b u v : share log p a b u -> share log p a b v -> (u == v)%Q.
  Proof. intros (_ & _ & ->) (_ & _ & ->). reflexivity. Qed.
End Counts.
