(** Proofs about the alpha sharp algorithm. *)
From Coq Require Import Permutation Sorted.
From Verif Require Import Py PyFacts InfoModel InfoSpec InfoProofs HashModel EqProofs ReplayModel RInfoModel RInfoSpec RInfoProofs AlphaModel AlphaSpec AlphaProofs AlphaProofs5 AlphaProofs6 PlusSpec PlusProofs NfcSpec NfcProofs NfcNetProofs NfcNetProofs2 SharpModel SharpSpec.

(** * Sets of pairs *)
Lemma plt_trans x y z : plt x y -> plt y z -> plt x z.
Proof.
  unfold plt. intros [H|[E H]] [H'|[E' H']].
  - left. exact (slt_trans _ _ _ H H').
  - left. rewrite <- E'. exact H.
  - left. rewrite E. exact H'.
  - right. split; [congruence|exact (slt_trans _ _ _ H H')].
Qed.
Lemma plt_irrefl x : ~ plt x x.
Proof. intros [[_ H]|[_ [_ H]]]; apply H; reflexivity. Qed.
Lemma pair_leb_plt x y : x <> y -> if pair_leb x y then plt x y else plt y x.
Proof.
  intros N. destruct x as [a b], y as [c d]. unfold pair_leb, plt, slt. cbn [fst snd]. destruct (str_eqb a c) eqn:E.
  - apply str_eqb_eq in E. subst c. assert (b <> d) by congruence. destruct (str_leb b d) eqn:L; right; (split; [reflexivity|]); split; auto. destruct (str_leb_total b d); [congruence|assumption].
  - assert (a <> c) by (intros ->; rewrite str_eqb_refl in E; discriminate). destruct (str_leb a c) eqn:L; left; split; auto. destruct (str_leb_total a c); [congruence|assumption].
Qed.
Lemma pset_insert_In x l y : In y (pset_insert x l) <-> y = x \/ In y l.
Proof.
  induction l as [|z l IH]; cbn [pset_insert]; [cbn; intuition congruence|]. destruct (pair_eq_dec x z) as [->|N]; [cbn; intuition congruence|].
  destruct (pair_leb x z); cbn [In]; [intuition congruence|]. rewrite IH. intuition congruence.
Qed.
Lemma pset_insert_sorted x l : psorted l -> psorted (pset_insert x l).
Proof.
  induction 1 as [|y l H IH F]; cbn [pset_insert]; [repeat constructor|]. destruct (pair_eq_dec x y) as [->|N]; [constructor; assumption|].
  assert (C := pair_leb_plt x y N). destruct (pair_leb x y).
  - constructor; [constructor; assumption|]. constructor; [exact C|]. eapply Forall_impl; [|exact F]. intros z Hz. exact (plt_trans _ _ _ C Hz).
  - constructor; [exact IH|]. apply Forall_forall. intros z Hz. apply pset_insert_In in Hz. destruct Hz as [->|Hz]; [exact C|]. rewrite Forall_forall in F. apply F, Hz.
Qed.
Lemma pset_of_In l y : In y (pset_of l) <-> In y l.
Proof.
  unfold pset_of. enough (G : forall l s, In y (fold_left (fun s x => pset_insert x s) l s) <-> In y l \/ In y s) by (rewrite G; cbn; tauto).
  clear l. induction l as [|x l IH]; intros s; cbn [fold_left In]; [tauto|]. rewrite IH, pset_insert_In. intuition congruence.
Qed.
Lemma pset_of_sorted l : psorted (pset_of l).
Proof.
  unfold pset_of. enough (G : forall l s, psorted s -> psorted (fold_left (fun s x => pset_insert x s) l s)) by (apply G; constructor).
  clear l. induction l as [|x l IH]; intros s H; cbn [fold_left]; [exact H|]. apply IH, pset_insert_sorted, H.
Qed.
Lemma pset_of_nil l : l <> [] -> pset_of l <> [].
Proof. destruct l as [|x l]; [congruence|]. intros _ E. assert (H : In x (pset_of (x :: l))) by (apply pset_of_In; left; reflexivity). rewrite E in H. destruct H. Qed.

(** * The search keeps what uniting and cloning keep *)
Section Keep.
  Context {T K : Type}.
  Variable key : T -> list K.
  Variable eqb : T -> T -> bool.
  Variable merger : T -> T -> option T.
  Variable clone : T -> T.
  Variable ord : nat -> forall A : Type, list A -> list A.
  Variable Q : T -> Prop.
  Hypothesis eqb_key : forall x y, eqb x y = true <-> key x = key y.
  Hypothesis O : forall k A (l : list A), Permutation (ord k A l) l.
  Hypothesis merger_Q : forall x y z, Q x -> Q y -> merger x y = Some z -> Q z.
  Hypothesis clone_Q : forall x, Q x -> Q (clone x).
  Lemma clone_fold vec mi ids : (forall i x, nth_error vec i = Some x -> Q x) -> forall new new',
    fold_left (fun new i => if existsb (Nat.eqb i) mi then new else match nth_error vec i with Some x => hadd eqb new (clone x) | None => new end) ids new = new' ->
    (NoDup (map key new) -> NoDup (map key new')) /\ incl new new' /\ (Forall Q new -> Forall Q new').
  Proof.
    intros V. induction ids as [|i ids IH]; intros new new' H; [cbn in H; subst; split; [auto|]; split; [apply incl_refl|auto]|]. cbn [fold_left] in H. destruct (IH _ _ H) as (A & B & C).
    destruct (existsb (Nat.eqb i) mi); [auto|]. destruct (nth_error vec i) as [x|] eqn:E; [|auto]. split; [intros N; apply A, (hadd_keys key eqb eqb_key), N|]. split; [intros z Hz; apply B, (hadd_keeps eqb), Hz|].
    intros F. apply C, Forall_forall. intros z Hz. apply (hadd_from eqb) in Hz. destruct Hz as [->|Hz]; [apply clone_Q, (V i), E|]. apply (proj1 (Forall_forall Q new) F), Hz.
  Qed.
  Lemma round_keeps vec : Forall Q vec -> match cloned_round eqb merger clone vec with
    | None => forall i j z, ~ merges merger vec i j z
    | Some new => Forall Q new /\ NoDup (map key new) /\ new <> [] /\ exists i j z, merges merger vec i j z
    end.
  Proof.
    intros F. unfold cloned_round. set (ps := list_prod _ _). destruct (fold_left (max_pair eqb merger vec) ps ([], [], false)) as [[new mi] ch] eqn:E.
    destruct (pairs_fold key eqb merger eqb_key vec ps _ _ _ _ _ _ E) as (A1 & A2 & A3 & A4 & A5 & A6 & A7 & A8).
    assert (V : forall i x, nth_error vec i = Some x -> Q x) by (intros i x X; apply (proj1 (Forall_forall Q vec) F), (nth_error_In _ _ X)).
    assert (In_ps : forall i j z, merges merger vec i j z -> In (i, j) ps).
    { intros i j z (_ & x & y & X & Y & _). apply in_prod; apply in_seq; [assert (i < length vec) by (apply nth_error_Some; congruence)|assert (j < length vec) by (apply nth_error_Some; congruence)]; lia. }
    destruct ch.
    - destruct (clone_fold vec mi (seq 0 (length vec)) V new _ eq_refl) as (B1 & B2 & B3). destruct (A7 eq_refl) as [X|(i & j & z & M)]; [discriminate|]. split; [|split; [|split]].
      + apply B3, Forall_forall. intros w Hw. destruct (A5 w Hw) as [[]|(a & b & _ & _ & x & y & X & Y & Z)]. exact (merger_Q x y w (V _ _ X) (V _ _ Y) Z).
      + apply B1, A1. constructor.
      + destruct (A8 i j z (In_ps i j z M) M) as (_ & _ & _ & z' & Hz & _). intros X. apply B2 in Hz. rewrite X in Hz. destruct Hz.
      + exists i, j, z. exact M.
    - intros i j z M. destruct (A8 i j z (In_ps i j z M) M) as (X & _). discriminate.
  Qed.
  Lemma search_keeps fuel : forall k vec r, Forall Q vec -> NoDup (map key vec) -> maximize_cloned eqb merger clone ord fuel k vec = Ok r ->
    Forall Q r /\ NoDup (map key r) /\ (vec <> [] -> r <> []) /\ (forall x y z, In x r -> In y r -> key x <> key y -> merger x y <> Some z) /\
    ((forall x y z, In x vec -> In y vec -> key x <> key y -> merger x y <> Some z) -> r = vec).
  Proof.
    induction fuel as [|fuel IH]; intros k vec r F N H; [discriminate|]. cbn [maximize_cloned] in H.
    assert (Fo : Forall Q (ord k T vec)) by (apply Forall_forall; intros x Hx; apply (proj1 (Forall_forall Q vec) F), (Permutation_in _ (O k T vec)), Hx).
    assert (R := round_keeps (ord k T vec) Fo). destruct (cloned_round eqb merger clone (ord k T vec)) as [new|].
    - destruct R as (F' & N' & Ne & i & j & z & Nij & x & y & X & Y & Z). destruct (IH (S k) new r F' N' H) as (A & B & C & D & _). split; [exact A|]. split; [exact B|]. split; [intros _; apply C, Ne|]. split; [exact D|].
      intros G. exfalso. apply (G x y z); [apply (Permutation_in _ (O k T vec)), (nth_error_In _ _ X)|apply (Permutation_in _ (O k T vec)), (nth_error_In _ _ Y)| |exact Z].
      intros Ek. apply Nij. apply (key_at key (ord k T vec) i j x y); auto. apply (Permutation_NoDup (Permutation_map key (Permutation_sym (O k T vec))) N).
    - injection H as <-. split; [exact F|]. split; [exact N|]. split; [auto|]. split; [|auto]. intros x y z Hx Hy Nk Z.
      apply (Permutation_in _ (Permutation_sym (O k T vec))) in Hx. apply (Permutation_in _ (Permutation_sym (O k T vec))) in Hy. apply In_nth_error in Hx. destruct Hx as (i & Hi). apply In_nth_error in Hy. destruct Hy as (j & Hj).
      apply (R i j z). split; [intros ->; congruence|]. exists x, y. auto.
  Qed.
  (** If nothing can be united the first round ends it. *)
  Lemma search_still fuel k vec : NoDup (map key vec) -> (forall x y z, In x vec -> In y vec -> key x <> key y -> merger x y <> Some z) -> maximize_cloned eqb merger clone ord (S fuel) k vec = Ok vec.
  Proof.
    intros N G. cbn [maximize_cloned]. unfold cloned_round. set (ps := list_prod _ _). destruct (fold_left (max_pair eqb merger (ord k T vec)) ps ([], [], false)) as [[new mi] ch] eqn:E.
    destruct (pairs_fold key eqb merger eqb_key (ord k T vec) ps _ _ _ _ _ _ E) as (_ & _ & _ & _ & _ & _ & A7 & _). destruct ch; [|reflexivity]. exfalso.
    destruct (A7 eq_refl) as [X|(i & j & z & Nij & x & y & X & Y & Z)]; [discriminate|]. apply (G x y z); [apply (Permutation_in _ (O k T vec)), (nth_error_In _ _ X)|apply (Permutation_in _ (O k T vec)), (nth_error_In _ _ Y)| |exact Z].
    intros Ek. apply Nij. apply (key_at key (ord k T vec) i j x y); auto. apply (Permutation_NoDup (Permutation_map key (Permutation_sym (O k T vec))) N).
  Qed.
End Keep.

Lemma sharp_eqb_key x y : sharp_eqb x y = true <-> sharp_key x = sharp_key y.
Proof. unfold sharp_eqb. destruct (list_eq_dec N.eq_dec (sharp_key x) (sharp_key y)); split; congruence. Qed.
Lemma pairs_text_key l : flat_map (fun x : pystr * pystr => fst x ++ snd x) l = pairs_text l.
Proof. unfold pairs_text. apply flat_map_concat_map. Qed.
Lemma comma_between l : comma_items l = between l.
Proof. unfold between. induction l as [|x [|y l] IH]; [reflexivity|cbn; rewrite app_nil_r; reflexivity|]. cbn [comma_items map concat] in *. rewrite IH. rewrite !app_assoc. reflexivity. Qed.
Lemma shown_proof t : sharp_string t = shown (s_in t) (s_out t).
Proof. unfold sharp_string, shown. rewrite !comma_between. reflexivity. Qed.

(** * The relations *)
Section Rel.
  Variable ord : nat -> forall A : Type, list A -> list A.
  Hypothesis O : any_order ord.
  Variable log : list (list pystr).
  Variable p : sprov.
  Hypothesis Pinfo : sp_info p = r_create_from ord log false None.
  Hypothesis Ptri : forall a b, In (a, b) (sp_triangles p) <-> triangle log a b.
  Lemma sdirect_proof a b : sharp_direct p a b = true <-> sh_next log a b.
  Proof. unfold sharp_direct, sh_next. rewrite Pinfo. apply (counts_proof ord O log false None). Qed.
  Lemma striangle_proof a b : sharp_triangle p a b = true <-> triangle log a b.
  Proof. unfold sharp_triangle. rewrite <- Ptri. destruct (in_dec pair_eq_dec (a, b) (sp_triangles p)); intuition discriminate. Qed.
  Lemma sromb_proof a b : sharp_romb p a b = true <-> sh_around log a b.
  Proof. unfold sharp_romb, sh_around. rewrite andb_true_iff, !striangle_proof. tauto. Qed.
  Lemma scausal_proof a b : sharp_causal p a b = true <-> sh_before log a b.
  Proof. unfold sharp_causal, sh_before. rewrite andb_true_iff, orb_true_iff, (not_true _ _ (sdirect_proof b a)), sdirect_proof, sromb_proof. tauto. Qed.
  Lemma sparallel_proof a b : sharp_parallel p a b = true <-> sh_beside log a b.
  Proof. unfold sharp_parallel, sh_beside. rewrite !andb_true_iff, (not_true _ _ (sromb_proof a b)), !sdirect_proof. tauto. Qed.
  Lemma sclasses_proof k c : In c (r_all_event_classes ord k (sp_info p)) <-> seen log None c.
  Proof. rewrite Pinfo, seen_proof. apply (counts_proof ord O log false None). Qed.
  Lemma next_seen a b : sh_next log a b -> seen log None a /\ seen log None b.
  Proof. intros H. apply follows_split in H. destruct H as (l1 & l2 & H). split; (split; [|exact I]); exists (l1 ++ a :: b :: l2); (split; [exact H|]); apply in_app_iff; cbn; tauto. Qed.
  Lemma before_seen a b : sh_before log a b -> seen log None a /\ seen log None b.
  Proof. intros [H _]. apply next_seen, H. Qed.
  Lemma advanced_proof a b : sharp_advanced ord p a b = true <-> hidden log a b.
  Proof.
    unfold sharp_advanced, hidden. rewrite andb_true_iff, scausal_proof. apply and_iff_compat_l. split.
    - intros H. apply existsb_exists in H. destruct H as (x & _ & H). apply existsb_exists in H. destruct H as (y & _ & H). exists x, y.
      rewrite !andb_true_iff, !scausal_proof, (not_true _ _ (sdirect_proof y x)), !(not_true _ _ (sparallel_proof _ _)) in H. tauto.
    - intros (x & y & H1 & H2 & H3). apply existsb_exists. exists x. split; [apply sclasses_proof, (before_seen a x H1)|]. apply existsb_exists. exists y. split; [apply sclasses_proof, (before_seen y b H2)|].
      rewrite !andb_true_iff, !scausal_proof, (not_true _ _ (sdirect_proof y x)), !(not_true _ _ (sparallel_proof _ _)). tauto.
  Qed.
  Lemma real_proof a b : sharp_real ord p a b = true <-> sh_before log a b /\ ~ hidden log a b.
  Proof. unfold sharp_real. rewrite andb_true_iff, scausal_proof, (not_true _ _ (advanced_proof a b)). tauto. Qed.
  Lemma neqb a b : negb (str_eqb a b) = true <-> a <> b.
  Proof. rewrite negb_true_iff. split; [intros H ->; rewrite str_eqb_refl in H; discriminate|]. intros H. destruct (str_eqb a b) eqn:E; [apply str_eqb_eq in E; contradiction|reflexivity]. Qed.
  Lemma redundant_proof a b : sharp_redundant ord p a b = true <-> spare log a b.
  Proof.
    unfold sharp_redundant, spare. split.
    - intros H. apply existsb_exists in H. destruct H as (c & _ & H). apply existsb_exists in H. destruct H as (d & _ & H). exists c, d. rewrite !andb_true_iff, !neqb, scausal_proof, !advanced_proof in H. tauto.
    - intros (c & d & H1 & H2 & H3 & H4). apply existsb_exists. exists c. split; [apply sclasses_proof, (before_seen c d H3)|]. apply existsb_exists. exists d. split; [apply sclasses_proof, (before_seen c d H3)|].
      rewrite !andb_true_iff, !neqb, scausal_proof, !advanced_proof. tauto.
  Qed.
  Lemma beside_sym a b : sh_beside log a b <-> sh_beside log b a.
  Proof. unfold sh_beside, sh_around. tauto. Qed.
  Lemma all_parallel_proof {A} (f : A -> pystr) l : NoDup l -> (all_parallel p (map f l) = true <-> forall x y, In x l -> In y l -> x <> y -> sh_beside log (f x) (f y)).
  Proof.
    induction 1 as [|x l Hx N IH]; [cbn; split; [intros _ ? ? []|reflexivity]|]. cbn [map all_parallel]. rewrite andb_true_iff, IH, forallb_forall. split.
    - intros [H1 H2] u v [<-|Hu] [<-|Hv] Ne; [congruence|apply sparallel_proof, H1, in_map, Hv|apply beside_sym, sparallel_proof, H1, in_map, Hu|apply H2; assumption].
    - intros H. split; [|intros u v Hu Hv; apply H; right; assumption]. intros c Hc. apply in_map_iff in Hc. destruct Hc as (y & <- & Hy). apply sparallel_proof, H; [left; reflexivity|right; exact Hy|intros ->; contradiction].
  Qed.
  Lemma psorted_NoDup l : psorted l -> NoDup l.
  Proof. induction 1 as [|x l H IH F]; constructor; [|exact IH]. intros Hx. rewrite Forall_forall in F. exact (plt_irrefl x (F x Hx)). Qed.
  Lemma svalid_proof t : psorted (s_in t) -> psorted (s_out t) -> (sharp_valid ord p t = true <-> sharp_fits log (s_in t) (s_out t)).
  Proof.
    intros Si So. unfold sharp_valid, sharp_fits. rewrite !andb_true_iff, (all_parallel_proof fst _ (psorted_NoDup _ Si)), (all_parallel_proof snd _ (psorted_NoDup _ So)), forallb_forall. split.
    - intros [[H1 H2] H3]. split; [|split].
      + intros a x y b Hi Ho. apply H1 in Hi. rewrite forallb_forall in Hi. apply Hi in Ho. cbn [fst snd] in Ho. rewrite andb_true_iff, advanced_proof, (not_true _ _ (sparallel_proof x y)) in Ho. exact Ho.
      + intros a x a' x' Hi Hi' Ne. exact (H2 _ _ Hi Hi' Ne).
      + intros y b y' b' Hi Hi' Ne. exact (H3 _ _ Hi Hi' Ne).
    - intros (H1 & H2 & H3). split; [split|].
      + intros [a x] Hi. apply forallb_forall. intros [y b] Ho. cbn [fst snd]. rewrite andb_true_iff, advanced_proof, (not_true _ _ (sparallel_proof x y)). apply H1; assumption.
      + intros [a x] [a' x'] Hi Hi' Ne. exact (H2 a x a' x' Hi Hi' Ne).
      + intros [y b] [y' b'] Hi Hi' Ne. exact (H3 y b y' b' Hi Hi' Ne).
  Qed.
  Lemma fits_same I O0 I' O' : (forall x, In x I <-> In x I') -> (forall x, In x O0 <-> In x O') -> sharp_fits log I O0 -> sharp_fits log I' O'.
  Proof.
    intros H1 H2 (A & B & C). split; [|split].
    - intros a x y b Hi Ho. apply A; [apply H1, Hi|apply H2, Ho].
    - intros a x a' x' Hi Hi'. apply (B a x a' x'); apply H1; assumption.
    - intros y b y' b' Hi Hi'. apply (C y b y' b'); apply H2; assumption.
  Qed.
  (** What holds of every tuple. *)
  Definition sgood (t : sharp) : Prop := psorted (s_in t) /\ psorted (s_out t) /\ s_in t <> [] /\ s_out t <> [] /\ of_log log (s_in t) /\ of_log log (s_out t) /\
    (sharp_fits log (s_in t) (s_out t) \/ (doubled (s_in t) /\ doubled (s_out t))).
  Lemma merge_good x y z : sgood x -> sgood y -> sharp_merge ord p x y = Some z -> sgood z.
  Proof.
    intros (X1 & X2 & X3 & X4 & X5 & X6 & _) (Y1 & Y2 & Y3 & Y4 & Y5 & Y6 & _). unfold sharp_merge. destruct (sharp_valid ord p _) eqn:V; [|discriminate]. intros E. injection E as <-. apply svalid_proof in V; [|apply pset_of_sorted|apply pset_of_sorted].
    unfold sgood. cbn [s_in s_out] in *. split; [apply pset_of_sorted|]. split; [apply pset_of_sorted|]. split; [apply pset_of_nil; intros Z; apply app_eq_nil in Z; tauto|]. split; [apply pset_of_nil; intros Z; apply app_eq_nil in Z; tauto|].
    split; [|split; [|left; exact V]]; intros a b H; apply pset_of_In, in_app_iff in H; destruct H; auto.
  Qed.
  Lemma clone_good x : sgood x -> sgood (sharp_clone x).
  Proof.
    intros (X1 & X2 & X3 & X4 & X5 & X6 & _). unfold sgood, sharp_clone. cbn [s_in s_out]. split; [apply pset_of_sorted|]. split; [apply pset_of_sorted|].
    split; [apply pset_of_nil; destruct (s_in x); [congruence|discriminate]|]. split; [apply pset_of_nil; destruct (s_out x); [congruence|discriminate]|].
    assert (D : forall l, of_log log l -> of_log log (pset_of (map (fun x => (fst x, fst x)) l)) /\ doubled (pset_of (map (fun x => (fst x, fst x)) l))).
    { intros l Hl. split; intros a b H; apply pset_of_In, in_map_iff in H; destruct H as ([c d] & E & H); cbn [fst] in E; injection E as <- <-; [|reflexivity]. destruct (Hl c d H) as (U & _). auto. }
    split; [apply D, X5|]. split; [apply D, X6|]. right. split; [apply D, X5|apply D, X6].
  Qed.
  Lemma pairs_proof : NoDup (sharp_pairs ord p) /\ forall a b, In (a, b) (sharp_pairs ord p) <-> needed log a b.
  Proof.
    unfold sharp_pairs. set (cl := r_all_event_classes ord 98 (sp_info p)). assert (N : NoDup cl) by (unfold cl; rewrite Pinfo; apply (counts_proof ord O log false None)). split.
    - apply NoDup_filter. clear -N. assert (G : forall l' : list pystr, NoDup l' -> NoDup (list_prod l' cl)); [|apply G, N]. induction l' as [|x l' IH]; intros H; [constructor|]. inversion H; subst. cbn [list_prod]. apply NoDup_app_disjoint; [apply FinFun.Injective_map_NoDup; [intros u v E; congruence|exact N]|apply IH; assumption|]. intros [u v] K1 K2. apply in_map_iff in K1. destruct K1 as (w & E & _). injection E as <- _. apply in_prod_iff in K2. tauto.
    - intros a b. rewrite filter_In, in_prod_iff. cbn [fst snd]. rewrite andb_true_iff, advanced_proof, (not_true _ _ (redundant_proof a b)). unfold needed. split; [tauto|]. intros [H1 H2]. split; [|tauto].
      destruct H1 as [H1 _]. apply before_seen in H1. unfold cl. rewrite !sclasses_proof. exact H1.
  Qed.
  Lemma fits_one a x y b : sharp_fits log [(a, x)] [(y, b)] <-> hidden log a b /\ ~ sh_beside log x y.
  Proof.
    split; [intros (H & _); apply H; left; reflexivity|]. intros H. split; [|split].
    - intros a' x' y' b' [E|[]] [E'|[]]. injection E as <- <-. injection E' as <- <-. exact H.
    - intros ? ? ? ? [E|[]] [E'|[]]. congruence.
    - intros ? ? ? ? [E|[]] [E'|[]]. congruence.
  Qed.
  Lemma psorted_one x : psorted [x].
  Proof. repeat constructor. Qed.
  Lemma first_In t : In t (flat_map (fun r => flat_map (fun x => flat_map (fun y =>
         match sharp_new ord p (fst r, x) (y, snd r) with Some t => [t] | None => [] end) (r_all_event_classes ord 98 (sp_info p))) (r_all_event_classes ord 98 (sp_info p))) (ord 99 _ (sharp_pairs ord p))) <->
    exists a x y b, t = mkSharp [(a, x)] [(y, b)] /\ needed log a b /\ seen log None x /\ seen log None y /\ ~ sh_beside log x y.
  Proof.
    assert (V : forall a x y b, sharp_valid ord p (mkSharp [(a, x)] [(y, b)]) = true <-> hidden log a b /\ ~ sh_beside log x y) by (intros; rewrite svalid_proof by apply psorted_one; apply fits_one).
    rewrite in_flat_map. split.
    - intros ([a b] & Hr & H). apply (Permutation_in _ (O 99 _ _)), pairs_proof in Hr. apply in_flat_map in H. destruct H as (x & Hx & H). apply in_flat_map in H. destruct H as (y & Hy & H). unfold sharp_new in H. cbn [fst snd] in H.
      destruct (sharp_valid ord p _) eqn:E; [|destruct H]. destruct H as [<-|[]]. apply V in E. apply sclasses_proof in Hx, Hy. exists a, x, y, b. tauto.
    - intros (a & x & y & b & -> & H1 & H2 & H3 & H4). exists (a, b). split; [apply (Permutation_in _ (Permutation_sym (O 99 _ _))), pairs_proof, H1|]. apply in_flat_map. exists x. split; [apply sclasses_proof, H2|].
      apply in_flat_map. exists y. split; [apply sclasses_proof, H3|]. unfold sharp_new. cbn [fst snd]. rewrite (proj2 (V a x y b)) by (split; [apply H1|exact H4]). left. reflexivity.
  Qed.
  Lemma first_proof : NoDup (map sharp_key (first_sharps ord p)) /\
    (forall t, In t (first_sharps ord p) -> exists a x y b, t = mkSharp [(a, x)] [(y, b)] /\ needed log a b /\ seen log None x /\ seen log None y /\ ~ sh_beside log x y) /\
    (forall a x y b, needed log a b -> seen log None x -> seen log None y -> ~ sh_beside log x y -> exists t, In t (first_sharps ord p) /\ sharp_key t = sharp_key (mkSharp [(a, x)] [(y, b)])).
  Proof.
    unfold first_sharps. match goal with |- context [fold_left _ ?l _] => destruct (dedup_proof sharp_key sharp_eqb sharp_eqb_key l [] (NoDup_nil _)) as (A & B & C) end. split; [exact A|]. split.
    - intros t Ht. destruct (B t Ht) as [H|[]]. apply first_In, H.
    - intros a x y b H1 H2 H3 H4. apply C. left. apply first_In. exists a, x, y, b. auto.
  Qed.
  Lemma first_good : Forall sgood (first_sharps ord p).
  Proof.
    apply Forall_forall. intros t Ht. destruct (proj1 (proj2 first_proof) t Ht) as (a & x & y & b & -> & (H1 & _) & H2 & H3 & H4). unfold sgood. cbn [s_in s_out]. do 2 (split; [apply psorted_one|]). do 2 (split; [discriminate|]).
    destruct (before_seen a b (proj1 H1)) as [[Sa _] [Sb _]]. destruct H2 as [H2 _]. destruct H3 as [H3 _]. split; [intros u v [E|[]]; injection E as <- <-; auto|]. split; [intros u v [E|[]]; injection E as <- <-; auto|]. left. apply fits_one. auto.
  Qed.
  Lemma merge_none x y : sgood x -> sgood y -> (forall z, sharp_merge ord p x y <> Some z) -> ~ sharp_fits log (s_in x ++ s_in y) (s_out x ++ s_out y).
  Proof.
    intros _ _ H F. unfold sharp_merge in H. destruct (sharp_valid ord p _) eqn:E; [eapply H; reflexivity|]. enough (X : sharp_valid ord p (mkSharp (pset_of (s_in x ++ s_in y)) (pset_of (s_out x ++ s_out y))) = true) by congruence.
    apply svalid_proof; [apply pset_of_sorted|apply pset_of_sorted|]. cbn [s_in s_out]. eapply fits_same; [| |exact F]; intros w; symmetry; apply pset_of_In.
  Qed.
  Lemma merge_some x y z : sharp_merge ord p x y = Some z -> sharp_fits log (s_in x ++ s_in y) (s_out x ++ s_out y).
  Proof.
    unfold sharp_merge. destruct (sharp_valid ord p _) eqn:E; [|discriminate]. intros _. apply svalid_proof in E; [|apply pset_of_sorted|apply pset_of_sorted]. cbn [s_in s_out] in E. eapply fits_same; [| |exact E]; intros w; apply pset_of_In.
  Qed.
End Rel.
