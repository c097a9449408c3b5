(** Proofs about the sets of the alpha algorithm. *)
From Coq Require Import Permutation Sorted Wellfounded.
From Verif Require Import Py PyFacts InfoModel InfoSpec InfoProofs HashModel EqProofs ReplayModel RInfoModel RInfoSpec RInfoProofs AlphaModel AlphaSpec.

(** * BTreeSets *)
Lemma slt_trans a b c : slt a b -> slt b c -> slt a c.
Proof.
  intros [H1 N1] [H2 N2]. split; [eapply str_leb_trans; eauto|]. intros ->. apply N1. apply str_leb_antisym; assumption.
Qed.
Lemma str_mem_spec x l : str_mem x l = true <-> In x l.
Proof. apply str_mem_In. Qed.
Lemma bset_insert_In x l y : In y (bset_insert x l) <-> y = x \/ In y l.
Proof.
  induction l as [|z l IH]; cbn [bset_insert]; [cbn; intuition congruence|].
  destruct (str_eqb x z) eqn:E; [apply str_eqb_eq in E; subst; cbn; intuition congruence|].
  destruct (str_leb x z); cbn [In]; [intuition congruence|]. rewrite IH. intuition congruence.
Qed.
Lemma bset_insert_sorted x l : bsorted l -> bsorted (bset_insert x l).
Proof.
  induction 1 as [|y l H IH F]; cbn [bset_insert]; [repeat constructor|].
  destruct (str_eqb x y) eqn:E; [constructor; assumption|].
  assert (Hne : x <> y) by (intros ->; rewrite str_eqb_refl in E; discriminate).
  destruct (str_leb x y) eqn:L.
  - assert (Hxy : slt x y) by (split; assumption). constructor; [constructor; assumption|]. constructor; [exact Hxy|].
    eapply Forall_impl; [|exact F]. intros z Hz. eapply slt_trans; eauto.
  - constructor; [exact IH|]. apply Forall_forall. intros z Hz. apply bset_insert_In in Hz. destruct Hz as [->|Hz].
    + split; [|congruence]. destruct (str_leb_total x y); [congruence|assumption].
    + rewrite Forall_forall in F. apply F, Hz.
Qed.
Lemma bset_fold_In l s y : In y (fold_left (fun s x => bset_insert x s) l s) <-> In y l \/ In y s.
Proof. revert s. induction l as [|x l IH]; intros s; cbn [fold_left In]; [tauto|]. rewrite IH, bset_insert_In. intuition congruence. Qed.
Lemma bset_of_In l y : In y (bset_of l) <-> In y l.
Proof. unfold bset_of. rewrite bset_fold_In. cbn. tauto. Qed.
Lemma bset_fold_sorted l s : bsorted s -> bsorted (fold_left (fun s x => bset_insert x s) l s).
Proof. revert s. induction l as [|x l IH]; intros s H; cbn [fold_left]; [exact H|]. apply IH, bset_insert_sorted, H. Qed.
Lemma bset_of_sorted l : bsorted (bset_of l).
Proof. apply bset_fold_sorted. constructor. Qed.
Lemma bsorted_NoDup l : bsorted l -> NoDup l.
Proof.
  induction 1 as [|x l H IH F]; constructor; [|exact IH]. intros Hx. rewrite Forall_forall in F. apply F in Hx. apply (proj2 Hx). reflexivity.
Qed.
Lemma bsorted_ext l l' : bsorted l -> bsorted l' -> same_names l l' -> l = l'.
Proof.
  intros H. revert l'. induction H as [|x l H IH F]; intros l' H' E.
  - destruct l' as [|y l']; [reflexivity|]. exfalso. apply (proj2 (E y)). left. reflexivity.
  - destruct H' as [|y l' H' F']; [exfalso; apply (proj1 (E x)); left; reflexivity|].
    rewrite Forall_forall in F, F'.
    assert (Exy : x = y).
    { destruct (proj1 (E x)) as [Hx|Hx]; [left; reflexivity|auto|]. destruct (proj2 (E y)) as [Hy|Hy]; [left; reflexivity|auto|].
      apply F' in Hx. apply F in Hy. exfalso. apply (proj2 Hx). apply str_leb_antisym; [apply Hx|apply Hy]. }
    subst y. f_equal. apply IH; [exact H'|]. intros z. specialize (E z). cbn [In] in E. split; intros Hz.
    + destruct (proj1 E) as [<-|Hz']; [auto| |exact Hz']. apply F in Hz. exfalso. apply (proj2 Hz). reflexivity.
    + destruct (proj2 E) as [<-|Hz']; [auto| |exact Hz']. apply F' in Hz. exfalso. apply (proj2 Hz). reflexivity.
Qed.
Lemma bset_subset_spec a b : bset_subset a b = true <-> incl a b.
Proof.
  unfold bset_subset. rewrite forallb_forall. unfold incl. split; intros H x Hx; apply str_mem_In; auto.
Qed.

(** * One round of maximize *)
Section Round.
  Context {T : Type}.
  Variable eqb : T -> T -> bool.
  Variable merger : T -> T -> option T.
  Variable P : T -> Prop.
  Hypothesis eqb_P : forall x y, P x -> P y -> (eqb x y = true <-> x = y).
  Hypothesis merger_P : forall x y z, P x -> P y -> merger x y = Some z -> P z.

  Lemma hadd_In s x y : Forall P s -> P x -> (In y (hadd eqb s x) <-> y = x \/ In y s).
  Proof.
    intros Hs Hx. unfold hadd. destruct (existsb (eqb x) s) eqn:E.
    - apply existsb_exists in E. destruct E as (z & Hz & E). rewrite Forall_forall in Hs. apply eqb_P in E; auto. subst z. intuition congruence.
    - rewrite in_app_iff. cbn. intuition congruence.
  Qed.
  Lemma hadd_P s x : Forall P s -> P x -> Forall P (hadd eqb s x).
  Proof. intros Hs Hx. unfold hadd. destruct (existsb (eqb x) s); [exact Hs|]. apply Forall_app. auto. Qed.
  Lemma hadd_NoDup s x : Forall P s -> P x -> NoDup s -> NoDup (hadd eqb s x).
  Proof.
    intros Hs Hx Hn. unfold hadd. destruct (existsb (eqb x) s) eqn:E; [exact Hn|]. eapply Permutation_NoDup; [apply Permutation_cons_append|].
    constructor; [|exact Hn]. intros H. assert (existsb (eqb x) s = true); [|congruence]. apply existsb_exists. exists x. split; [exact H|]. apply eqb_P; auto.
  Qed.
  Lemma hadds_proof l : forall s, Forall P s -> NoDup s -> Forall P l ->
    let s' := fold_left (hadd eqb) l s in Forall P s' /\ NoDup s' /\ forall y, In y s' <-> In y l \/ In y s.
  Proof.
    cbn zeta. induction l as [|x l IH]; intros s Hs Hn Hl; cbn [fold_left In]; [tauto|]. inversion Hl; subst.
    destruct (IH (hadd eqb s x)) as (A & B & C); auto using hadd_P, hadd_NoDup. split; [exact A|]. split; [exact B|]. intros y. rewrite C, hadd_In by assumption. intuition congruence.
  Qed.
  Lemma nadd_In s i j : In j (nadd s i) <-> j = i \/ In j s.
  Proof.
    unfold nadd. destruct (existsb (Nat.eqb i) s) eqn:E.
    - apply existsb_exists in E. destruct E as (z & Hz & E). apply Nat.eqb_eq in E. subst z. intuition congruence.
    - rewrite in_app_iff. cbn. intuition congruence.
  Qed.

  Variable vec : list T.
  Hypothesis vec_P : Forall P vec.
  Hypothesis vec_once : NoDup vec.
  Definition merges (i j : nat) (z : T) : Prop :=
    i <> j /\ exists x y, nth_error vec i = Some x /\ nth_error vec j = Some y /\ merger x y = Some z.

  Lemma max_pairs_proof ps : forall new mi ch, Forall P new -> NoDup new ->
    let '(new', mi', ch') := fold_left (max_pair eqb merger vec) ps (new, mi, ch) in
    Forall P new' /\ NoDup new' /\
    (forall z, In z new' <-> In z new \/ exists i j, In (i, j) ps /\ merges i j z) /\
    (forall k, In k mi' <-> In k mi \/ exists i j z, In (i, j) ps /\ merges i j z /\ (k = i \/ k = j)) /\
    (ch' = true <-> ch = true \/ exists i j z, In (i, j) ps /\ merges i j z).
  Proof.
    induction ps as [|[i j] ps IH]; intros new mi ch Hp Hn; cbn [fold_left].
    - split; [exact Hp|]. split; [exact Hn|]. cbn [In]. split; [|split].
      + intros z. split; [auto|]. intros [H|(i & j & [] & _)]. exact H.
      + intros k. split; [auto|]. intros [H|(i & j & z & [] & _)]. exact H.
      + split; [auto|]. intros [H|(i & j & z & [] & _)]. exact H.
    - assert (Hskip : max_pair eqb merger vec (new, mi, ch) (i, j) = (new, mi, ch) -> (forall z, ~ merges i j z) ->
        let '(new', mi', ch') := fold_left (max_pair eqb merger vec) ps (max_pair eqb merger vec (new, mi, ch) (i, j)) in
        Forall P new' /\ NoDup new' /\
        (forall z, In z new' <-> In z new \/ exists i0 j0, In (i0, j0) ((i, j) :: ps) /\ merges i0 j0 z) /\
        (forall k, In k mi' <-> In k mi \/ exists i0 j0 z, In (i0, j0) ((i, j) :: ps) /\ merges i0 j0 z /\ (k = i0 \/ k = j0)) /\
        (ch' = true <-> ch = true \/ exists i0 j0 z, In (i0, j0) ((i, j) :: ps) /\ merges i0 j0 z)).
      { intros -> Hno. specialize (IH new mi ch Hp Hn). destruct (fold_left _ ps (new, mi, ch)) as [[new' mi'] ch'].
        destruct IH as (A & B & C & D & E). split; [exact A|]. split; [exact B|]. split; [|split].
        - intros z. rewrite C. split; (intros [H|(a & b & H & M)]; [left; exact H|right; exists a, b]); [split; [right; exact H|exact M]|].
          destruct H as [H|H]; [injection H as <- <-; exfalso; eapply Hno; eauto|auto].
        - intros k. rewrite D. split; (intros [H|(a & b & z & H & M & K)]; [left; exact H|right; exists a, b, z]); [split; [right; exact H|auto]|].
          destruct H as [H|H]; [injection H as <- <-; exfalso; eapply Hno; eauto|auto].
        - rewrite E. split; (intros [H|(a & b & z & H & M)]; [left; exact H|right; exists a, b, z]); [split; [right; exact H|auto]|].
          destruct H as [H|H]; [injection H as <- <-; exfalso; eapply Hno; eauto|auto]. }
      destruct (i =? j) eqn:Eij.
      { apply Hskip; [cbn; rewrite Eij; reflexivity|]. intros z [H _]. apply Nat.eqb_eq in Eij. contradiction. }
      destruct (nth_error vec i) as [x|] eqn:Ei; [|apply Hskip; [cbn; rewrite Eij, Ei; reflexivity|]; intros z (_ & x & y & H & _); congruence].
      destruct (nth_error vec j) as [y|] eqn:Ej; [|apply Hskip; [cbn; rewrite Eij, Ei, Ej; reflexivity|]; intros z (_ & x' & y & _ & H & _); congruence].
      destruct (merger x y) as [m|] eqn:Em; [|apply Hskip; [cbn; rewrite Eij, Ei, Ej, Em; reflexivity|]; intros z (_ & x' & y' & H1 & H2 & H3); congruence].
      assert (Es : max_pair eqb merger vec (new, mi, ch) (i, j) = (hadd eqb new m, nadd (nadd mi i) j, true)) by (cbn; rewrite Eij, Ei, Ej, Em; reflexivity).
      rewrite Es. clear Hskip Es.
      assert (HPm : P m). { rewrite Forall_forall in vec_P. apply nth_error_In in Ei, Ej. eapply merger_P; [apply vec_P, Ei|apply vec_P, Ej|exact Em]. }
      assert (Hm : forall z, merges i j z <-> z = m).
      { intros z. split.
        - intros (_ & x' & y' & H1 & H2 & H3). congruence.
        - intros ->. split; [apply Nat.eqb_neq; exact Eij|]. exists x, y. auto. }
      specialize (IH (hadd eqb new m) (nadd (nadd mi i) j) true (hadd_P _ _ Hp HPm) (hadd_NoDup _ _ Hp HPm Hn)).
      destruct (fold_left _ ps (hadd eqb new m, nadd (nadd mi i) j, true)) as [[new' mi'] ch'].
      destruct IH as (A & B & C & D & E). split; [exact A|]. split; [exact B|]. split; [|split].
      + intros z. rewrite C, hadd_In by assumption. split.
        * intros [[->|H]|(a & b & H & M)]; [right; exists i, j; split; [left; reflexivity|apply Hm; reflexivity]|left; exact H|right; exists a, b; split; [right; exact H|exact M]].
        * intros [H|(a & b & [H|H] & M)]; [left; right; exact H|injection H as <- <-; apply Hm in M; left; left; exact M|right; exists a, b; auto].
      + intros k. rewrite D, !nadd_In. split.
        * intros [[->|[->|H]]|(a & b & z & H & M & K)]; [right; exists i, j, m; split; [left; reflexivity|split; [apply Hm; reflexivity|auto]]|
            right; exists i, j, m; split; [left; reflexivity|split; [apply Hm; reflexivity|auto]]|left; exact H|right; exists a, b, z; split; [right; exact H|auto]].
        * intros [H|(a & b & z & [H|H] & M & K)]; [auto|injection H as <- <-; left; destruct K as [->| ->]; auto|right; exists a, b, z; auto].
      + rewrite E. split; [|intros _; left; reflexivity]. intros _. right. exists i, j, m. split; [left; reflexivity|apply Hm; reflexivity].
  Qed.

  Lemma keep_unmerged mi ids : forall new, Forall P new -> NoDup new ->
    let r := fold_left (fun new i => if existsb (Nat.eqb i) mi then new
                                     else match nth_error vec i with Some x => hadd eqb new x | None => new end) ids new in
    Forall P r /\ NoDup r /\ forall z, In z r <-> In z new \/ exists i, In i ids /\ ~ In i mi /\ nth_error vec i = Some z.
  Proof.
    cbn zeta. induction ids as [|i ids IH]; intros new Hp Hn; cbn [fold_left].
    - split; [exact Hp|]. split; [exact Hn|]. intros z. split; [auto|]. intros [H|(i & [] & _)]. exact H.
    - assert (Hmem : existsb (Nat.eqb i) mi = true <-> In i mi).
      { rewrite existsb_exists. split; [intros (j & Hj & E); apply Nat.eqb_eq in E; subst; exact Hj|]. intros H. exists i. split; [exact H|apply Nat.eqb_refl]. }
      destruct (existsb (Nat.eqb i) mi) eqn:E.
      + destruct (IH new Hp Hn) as (A & B & C). split; [exact A|]. split; [exact B|]. intros z. rewrite C. split; (intros [H|(j & H & K)]; [left; exact H|right; exists j]); [split; [right; exact H|exact K]|].
        destruct H as [<-|H]; [exfalso; apply (proj1 K), Hmem; reflexivity|auto].
      + assert (Hni : ~ In i mi) by (intros H; apply Hmem in H; discriminate). destruct (nth_error vec i) as [x|] eqn:Ei.
        * assert (HPx : P x). { rewrite Forall_forall in vec_P. apply vec_P. eapply nth_error_In; eauto. }
          destruct (IH (hadd eqb new x) (hadd_P _ _ Hp HPx) (hadd_NoDup _ _ Hp HPx Hn)) as (A & B & C). split; [exact A|]. split; [exact B|].
          intros z. rewrite C, hadd_In by assumption. split.
          -- intros [[->|H]|(j & H & K)]; [right; exists i; split; [left; reflexivity|auto]|left; exact H|right; exists j; split; [right; exact H|exact K]].
          -- intros [H|(j & [<-|H] & K1 & K2)]; [auto|left; left; congruence|right; exists j; auto].
        * destruct (IH new Hp Hn) as (A & B & C). split; [exact A|]. split; [exact B|]. intros z. rewrite C. split; (intros [H|(j & H & K)]; [left; exact H|right; exists j]); [split; [right; exact H|exact K]|].
          destruct H as [<-|H]; [exfalso; destruct K; congruence|auto].
  Qed.

  Lemma idx x : In x vec -> exists i, i < length vec /\ nth_error vec i = Some x.
  Proof. intros H. apply In_nth_error in H. destruct H as [i Hi]. exists i. split; [apply nth_error_Some; congruence|exact Hi]. Qed.
  Lemma all_pairs i j : i < length vec -> j < length vec -> In (i, j) (list_prod (seq 0 (length vec)) (seq 0 (length vec))).
  Proof. intros Hi Hj. apply in_prod; apply in_seq; lia. Qed.
  Lemma merges_iff z : (exists i j, In (i, j) (list_prod (seq 0 (length vec)) (seq 0 (length vec))) /\ merges i j z) <->
    exists x y, In x vec /\ In y vec /\ x <> y /\ merger x y = Some z.
  Proof.
    split.
    - intros (i & j & _ & Hij & x & y & Hx & Hy & E). exists x, y. split; [eapply nth_error_In; eauto|]. split; [eapply nth_error_In; eauto|]. split; [|exact E].
      intros ->. apply Hij. rewrite <- Hy in Hx. apply (proj1 (NoDup_nth_error vec) vec_once); [|exact Hx]. apply nth_error_Some. congruence.
    - intros (x & y & Hx & Hy & Hne & E). destruct (idx _ Hx) as (i & Li & Ei), (idx _ Hy) as (j & Lj & Ej). exists i, j. split; [apply all_pairs; assumption|].
      split; [intros ->; congruence|]. exists x, y. auto.
  Qed.

  Lemma round_proof :
    match max_round eqb merger vec with
    | None => forall x y, In x vec -> In y vec -> x <> y -> merger x y = None
    | Some new => Forall P new /\ NoDup new /\ (exists x y z, In x vec /\ In y vec /\ x <> y /\ merger x y = Some z) /\
        forall z, In z new <->
          (exists x y, In x vec /\ In y vec /\ x <> y /\ merger x y = Some z) \/
          (In z vec /\ forall y, In y vec -> y <> z -> merger z y = None /\ merger y z = None)
    end.
  Proof.
    unfold max_round. pose proof (max_pairs_proof (list_prod (seq 0 (length vec)) (seq 0 (length vec))) [] [] false (Forall_nil _) (NoDup_nil _)) as M.
    destruct (fold_left _ _ ([], [], false)) as [[new mi] ch]. destruct M as (A & B & C & D & E). destruct ch.
    - destruct (keep_unmerged mi (seq 0 (length vec)) new A B) as (A' & B' & C'). split; [exact A'|]. split; [exact B'|]. split.
      + destruct (proj1 E eq_refl) as [H|(i & j & z & H & K)]; [discriminate|]. destruct (proj1 (merges_iff z)) as (x & y & X); [exists i, j; auto|]. exists x, y, z. exact X.
      + intros z. rewrite C', C. split.
        * intros [[[]|H]|(i & Hi & Hni & Ez)]; [left; apply merges_iff; exact H|]. right. split; [eapply nth_error_In; eauto|]. intros y Hy Hne.
          destruct (idx _ Hy) as (j & Lj & Ej). apply in_seq in Hi. assert (Hij : i <> j) by (intros ->; congruence).
          split; [destruct (merger z y) as [m|] eqn:Em; [exfalso|reflexivity]|destruct (merger y z) as [m|] eqn:Em; [exfalso|reflexivity]]; apply Hni, D; right.
          -- exists i, j, m. split; [apply all_pairs; lia|]. split; [|auto]. split; [exact Hij|]. exists z, y. auto.
          -- exists j, i, m. split; [apply all_pairs; lia|]. split; [|auto]. split; [congruence|]. exists y, z. auto.
        * intros [H|[Hz H]]; [left; right; apply merges_iff; exact H|]. right. destruct (idx _ Hz) as (i & Li & Ei). exists i. split; [apply in_seq; lia|]. split; [|exact Ei].
          intros Hi. apply D in Hi. destruct Hi as [[]|(a & b & m & _ & (Hab & x & y & Hx & Hy & Em) & [-> | ->])].
          -- rewrite Ei in Hx. injection Hx as <-. destruct (H y) as [H1 _]; [eapply nth_error_In; eauto| |congruence]. intros ->. apply Hab. rewrite <- Hy in Ei. symmetry.
             apply (proj1 (NoDup_nth_error vec) vec_once); [apply nth_error_Some; congruence|congruence].
          -- rewrite Ei in Hy. injection Hy as <-. destruct (H x) as [_ H1]; [eapply nth_error_In; eauto| |congruence]. intros ->. apply Hab. rewrite <- Hx in Ei.
             apply (proj1 (NoDup_nth_error vec) vec_once); [apply nth_error_Some; congruence|congruence].
    - intros x y Hx Hy Hne. destruct (merger x y) as [m|] eqn:Em; [|reflexivity]. exfalso.
      assert (false = true); [|discriminate]. apply E. right. destruct (proj2 (merges_iff m)) as (i & j & H); [exists x, y; auto|]. exists i, j, m. exact H.
  Qed.
End Round.
