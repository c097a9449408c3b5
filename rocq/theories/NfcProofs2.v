(** Proofs about the closure of relations in the alpha++ NFC algorithm. *)
From Coq Require Import Permutation.
From Verif Require Import Py PyFacts InfoModel InfoSpec InfoProofs ReplayModel RInfoModel RInfoSpec RInfoProofs AlphaModel AlphaSpec AlphaProofs AlphaProofs5 PlusSpec NfcModel NfcSpec NfcProofs.

Definition child (g : dict pystr (list pystr)) (a b : pystr) : Prop := exists l, dget str_eq_dec g a = Some l /\ In b l.
Lemma has_child_proof g a b : has_child g a b = true <-> child g a b.
Proof.
  unfold has_child, child. destruct (dget str_eq_dec g a) as [l|].
  - rewrite str_mem_spec. split; [eauto|]. intros (l' & E & H). injection E as <-. exact H.
  - split; [discriminate|]. intros (l & E & _). discriminate.
Qed.
Lemma put_child_proof g a b x y : child (put_child g a b) x y <-> (x, y) = (a, b) \/ child g x y.
Proof.
  unfold put_child, child. destruct (dget str_eq_dec g a) as [l|] eqn:E; destruct (list_eq_dec N.eq_dec x a) as [->|D].
  - rewrite dget_dset_same. split.
    + intros (l' & E' & H). injection E' as <-. apply set_add_In in H. destruct H as [->|H]; [auto|]. right. eauto.
    + intros [H|(l' & E' & H)]; eexists; (split; [reflexivity|]); apply set_add_In; [left; congruence|right; congruence].
  - rewrite dget_dset_other by congruence. split; [auto|]. intros [H|H]; [congruence|exact H].
  - rewrite dget_dset_same. split.
    + intros (l' & E' & H). injection E' as <-. destruct H as [->|[]]. auto.
    + intros [H|(l' & E' & H)]; [|congruence]. eexists; (split; [reflexivity|]). left. congruence.
  - rewrite dget_dset_other by congruence. split; [auto|]. intros [H|H]; [congruence|exact H].
Qed.
Section Closure.
  Variable ord : nat -> forall A : Type, list A -> list A.
  Hypothesis O : any_order ord.
  Lemma oi {A} k (l : list A) x : In x (ord k A l) <-> In x l.
  Proof. split; apply Permutation_in; [apply O|symmetry; apply O]. Qed.
  Variable rel : list (pystr * pystr).
  Definition R (a b : pystr) : Prop := In (a, b) rel.
  Let g := w3_graph ord rel.
  Lemma graph_proof a b : child g a b <-> R a b.
  Proof.
    unfold g, w3_graph, R. rewrite <- (oi 62).
    enough (H : forall l g0, child (fold_left (fun g r => put_child g (fst r) (snd r)) l g0) a b <-> In (a, b) l \/ child g0 a b).
    { rewrite H. split; [|auto]. intros [X|(l & E & _)]; [exact X|discriminate]. }
    induction l as [|[x y] l IH]; intros g0; cbn [fold_left fst snd]; [cbn [In]; tauto|]. rewrite IH, put_child_proof. cbn [In].
    assert (E : (a, b) = (x, y) <-> (x, y) = (a, b)) by (split; congruence). tauto.
  Qed.
  Lemma w3_classes_proof c : In c (w3_classes ord rel) <-> touched rel c.
  Proof.
    unfold w3_classes, touched.
    enough (H : forall l s, In c (fold_left (fun s r => set_add (set_add s (fst r)) (snd r)) l s) <-> In c s \/ exists d, In (c, d) l \/ In (d, c) l).
    { rewrite H. cbn [In]. split; [intros [[]|(d & X)]|intros (d & X); right]; exists d; rewrite !(oi 62) in *; exact X. }
    induction l as [|[x y] l IH]; intros s; cbn [fold_left fst snd].
    - split; [auto|]. intros [H|(d & [[]|[]])]. exact H.
    - rewrite IH, !set_add_In. cbn [In]. split.
      + intros [[->|[->|H]]|(d & [H|H])]; [right; exists x|right; exists y|left|right; exists d|right; exists d]; auto.
      + intros [H|(d & [[H|H]|[H|H]])]; [auto| | | |]; [injection H as -> ->; auto|right; exists d; auto|injection H as -> ->; auto|right; exists d; auto].
  Qed.

  Lemma walk_app n a b c : walk R n a b -> R b c -> walk R (S n) a c.
  Proof. induction 1 as [a|n a x b H W IH]; intros K; [apply (walk_step R 0 a c c K); constructor|]. eapply walk_step; [exact H|apply IH, K]. Qed.
  Lemma walk_trans n m a b c : walk R n a b -> walk R m b c -> walk R (n + m) a c.
  Proof. induction 1 as [a|n a x b H W IH]; intros K; [exact K|]. cbn [Nat.add]. eapply walk_step; [exact H|apply IH, K]. Qed.
  (** The search finds what can be reached. *)
  Lemma search_pop fuel b x q : search ord g b (S fuel) (x :: q) =
    match dget str_eq_dec g x with Some l => if str_mem b l then Ok true else search ord g b fuel (q ++ ord 63 _ l) | None => search ord g b fuel q end.
  Proof. reflexivity. Qed.
  Lemma found b n : forall l1 x l2 y, walk R n x y -> R y b -> exists fuel, search ord g b fuel (l1 ++ x :: l2) = Ok true.
  Proof.
    induction n as [|n IHn].
    - intros l1. induction l1 as [|z l1 IH]; intros x l2 y W K.
      + inversion W; subst. apply graph_proof in K. destruct K as (l & E & Hl). exists 1. cbn [app]. rewrite search_pop, E. apply str_mem_spec in Hl. rewrite Hl. reflexivity.
      + destruct (dget str_eq_dec g z) as [l|] eqn:E.
        * destruct (str_mem b l) eqn:Em; [exists 1; cbn [app]; rewrite search_pop, E, Em; reflexivity|].
          destruct (IH x (l2 ++ ord 63 _ l) y W K) as [fuel Hf]. exists (S fuel). cbn [app]. rewrite search_pop, E, Em, <- app_assoc. exact Hf.
        * destruct (IH x l2 y W K) as [fuel Hf]. exists (S fuel). cbn [app]. rewrite search_pop, E. exact Hf.
    - intros l1. induction l1 as [|z l1 IH]; intros x l2 y W K.
      + inversion W as [|n' x' w y' Hw W']; subst. apply graph_proof in Hw. destruct Hw as (l & E & Hl).
        destruct (str_mem b l) eqn:Em; [exists 1; cbn [app]; rewrite search_pop, E, Em; reflexivity|].
        apply (proj2 (oi 63 _ _)) in Hl. apply in_split in Hl. destruct Hl as (m1 & m2 & Em2). destruct (IHn (l2 ++ m1) w m2 y W' K) as [fuel Hf].
        exists (S fuel). cbn [app]. rewrite search_pop, E, Em, Em2. rewrite <- app_assoc in Hf. exact Hf.
      + destruct (dget str_eq_dec g z) as [l|] eqn:E.
        * destruct (str_mem b l) eqn:Em; [exists 1; cbn [app]; rewrite search_pop, E, Em; reflexivity|].
          destruct (IH x (l2 ++ ord 63 _ l) y W K) as [fuel Hf]. exists (S fuel). cbn [app]. rewrite search_pop, E, Em, <- app_assoc. exact Hf.
        * destruct (IH x l2 y W K) as [fuel Hf]. exists (S fuel). cbn [app]. rewrite search_pop, E. exact Hf.
  Qed.
  Definition short (n : nat) (x : pystr) : Prop := forall y, ~ walk R n x y.
  Lemma short_child n x l y : short (S n) x -> dget str_eq_dec g x = Some l -> In y l -> short n y.
  Proof. intros S E H z W. apply (S z). eapply walk_step; [|exact W]. apply graph_proof. exists l. auto. Qed.
  Lemma stops b n : forall q, (forall x, In x q -> short n x) -> exists fuel v, search ord g b fuel q = Ok v.
  Proof.
    induction n as [|n IHn]; intros q H.
    - destruct q as [|x q]; [exists 1, false; reflexivity|]. exfalso. apply (H x (or_introl eq_refl) x). constructor.
    - enough (K : forall l1 l2, (forall x, In x l1 -> short (S n) x) -> (forall x, In x l2 -> short n x) -> exists fuel v, search ord g b fuel (l1 ++ l2) = Ok v).
      { specialize (K q [] H). rewrite app_nil_r in K. apply K. intros x []. }
      clear q H. induction l1 as [|x l1 IH]; intros l2 H1 H2; [apply IHn, H2|].
      destruct (dget str_eq_dec g x) as [l|] eqn:E.
      + destruct (str_mem b l) eqn:Em; [exists 1, true; cbn [app]; rewrite search_pop, E, Em; reflexivity|].
        destruct (IH (l2 ++ ord 63 _ l)) as (fuel & v & Hf).
        * intros y Hy. apply H1. right. exact Hy.
        * intros y Hy. apply in_app_iff in Hy. destruct Hy as [Hy|Hy]; [apply H2, Hy|]. apply (proj1 (oi 63 _ _)) in Hy. eapply short_child; [|exact E|exact Hy]. apply H1. left. reflexivity.
        * exists (S fuel), v. cbn [app]. rewrite search_pop, E, Em, <- app_assoc. exact Hf.
      + destruct (IH l2) as (fuel & v & Hf); [intros y Hy; apply H1; right; exact Hy|exact H2|]. exists (S fuel), v. cbn [app]. rewrite search_pop, E. exact Hf.
  Qed.
  Lemma search_true b fuel : forall q, search ord g b fuel q = Ok true -> exists x, In x q /\ leads R x b.
  Proof.
    induction fuel as [|fuel IH]; intros q H; [discriminate|]. destruct q as [|x q]; [discriminate|]. rewrite search_pop in H. destruct (dget str_eq_dec g x) as [l|] eqn:E.
    - destruct (str_mem b l) eqn:Em.
      + exists x. split; [left; reflexivity|]. exists 0. eapply walk_step; [|constructor]. apply graph_proof. exists l. split; [exact E|apply str_mem_spec, Em].
      + destruct (IH _ H) as (y & Hy & n & W). apply in_app_iff in Hy. destruct Hy as [Hy|Hy]; [exists y; split; [right; exact Hy|exists n; exact W]|].
        exists x. split; [left; reflexivity|]. exists (S n). eapply walk_step; [|exact W]. apply graph_proof. exists l. split; [exact E|apply (oi 63), Hy].
    - destruct (IH _ H) as (y & Hy & W). exists y. split; [right; exact Hy|exact W].
  Qed.
  Lemma search_false b fuel : forall q, search ord g b fuel q = Ok false -> forall x, In x q -> short fuel x /\ ~ leads R x b.
  Proof.
    assert (Sh : forall n x, short n x -> short (S n) x).
    { intros n x S y W. revert y W. induction n as [|n IHn] in x, S |- *; intros y W; [apply (S x); constructor|].
      inversion W as [|n' x' w y' Hw W']; subst. assert (Sw : short n w) by (intros z Wz; apply (S z); eapply walk_step; eauto). apply (IHn w Sw y W'). }
    induction fuel as [|fuel IH]; intros q H; [discriminate|]. destruct q as [|x q]; [intros z []|]. rewrite search_pop in H.
    destruct (dget str_eq_dec g x) as [l|] eqn:E.
    - destruct (str_mem b l) eqn:Em; [discriminate|]. specialize (IH _ H). intros z [<-|Hz].
      + assert (C : forall w, R x w -> short fuel w /\ ~ leads R w b /\ w <> b).
        { intros w Hw. apply graph_proof in Hw. destruct Hw as (l' & E' & Hw). assert (l' = l) by congruence. subst l'.
          destruct (IH w) as [A B]; [apply in_app_iff; right; apply (proj2 (oi 63 _ _)), Hw|]. split; [exact A|]. split; [exact B|]. intros ->. apply str_mem_spec in Hw. congruence. }
        split.
        * intros y W. inversion W as [|n' x' w y' Hw W']; subst. apply (proj1 (C w Hw) y W').
        * intros (n & W). inversion W as [|n' x' w y' Hw W']; subst. destruct (C w Hw) as (_ & B & D). inversion W'; subst; [contradiction|]. apply B. eexists; eauto.
      + destruct (IH z) as [A B]; [apply in_app_iff; left; exact Hz|]. split; [apply Sh, A|exact B].
    - specialize (IH _ H). intros z [<-|Hz].
      + assert (C : forall w, ~ R x w) by (intros w Hw; apply graph_proof in Hw; destruct Hw as (l' & E' & _); congruence). split.
        * intros y W. inversion W; subst. eapply C; eauto.
        * intros (n & W). inversion W; subst. eapply C; eauto.
      + destruct (IH z Hz) as [A B]. split; [apply Sh, A|exact B].
  Qed.
  Lemma search_more b fuel : forall q v more, search ord g b fuel q = Ok v -> search ord g b (fuel + more) q = Ok v.
  Proof.
    induction fuel as [|fuel IH]; intros q v more H; [discriminate|]. destruct q as [|x q]; [exact H|]. cbn [Nat.add]. rewrite search_pop in H |- *.
    destruct (dget str_eq_dec g x) as [l|]; [destruct (str_mem b l); [exact H|]|]; apply IH, H.
  Qed.
  Lemma search_err b fuel : forall q e, search ord g b fuel q = Err e -> e = Diverges.
  Proof.
    induction fuel as [|fuel IH]; intros q e H; [injection H as <-; reflexivity|]. destruct q as [|x q]; [discriminate|]. rewrite search_pop in H.
    destruct (dget str_eq_dec g x) as [l|]; [destruct (str_mem b l); [discriminate|]|]; eapply IH, H.
  Qed.
  (** Walks which do not come back are short. *)
  Lemma walk_list n : forall x y, walk R n x y -> exists l, length l = n /\ (forall z, In z l -> touched rel z /\ exists m, walk R m x z) /\ (NoDup l \/ exists c m, walk R m x c /\ leads R c c).
  Proof.
    induction n as [|n IH]; intros x y W.
    - exists []. split; [reflexivity|]. split; [intros z []|]. left. constructor.
    - inversion W as [|n' x' w y' Hw W']; subst. destruct (IH w y W') as (l & L & Hl & D). exists (x :: l). split; [cbn; lia|]. split.
      + intros z [<-|Hz]; [split; [exists w; left; exact Hw|exists 0; constructor]|]. destruct (Hl z Hz) as [T (m & Wm)]. split; [exact T|]. exists (S m). eapply walk_step; eauto.
      + destruct D as [D|(c & m & Wc & Lc)]; [|right; exists c, (S m); split; [eapply walk_step; eauto|exact Lc]].
        destruct (in_dec (list_eq_dec N.eq_dec) x l) as [Hx|Hx]; [|left; constructor; assumption].
        right. exists x, 0. split; [constructor|]. destruct (Hl x Hx) as [_ (m & Wm)]. exists m. eapply walk_step; eauto.
  Qed.
  Lemma ends_short a : ~ endless R a -> short (S (length (w3_classes ord rel))) a.
  Proof.
    intros E y W. destruct (walk_list _ _ _ W) as (l & L & Hl & [D|(c & m & Wc & Lc)]); [|apply E; exists m, c; auto].
    assert (H : length l <= length (w3_classes ord rel)) by (apply NoDup_incl_length; [exact D|]; intros z Hz; apply w3_classes_proof, Hl, Hz). lia.
  Qed.
  Lemma loop_walks c : leads R c c -> forall n, exists y, walk R n c y.
  Proof.
    intros (m & W) n. assert (H : exists k y, n <= k /\ walk R k c y).
    { induction n as [|n (k & y & L & Wk)]; [exists 0, c; split; [lia|constructor]|]. exists (S m + k), y. split; [lia|]. eapply walk_trans; eauto. }
    destruct H as (k & y & L & Wk). clear W m. revert n L. induction Wk as [a|k a b y H W IH]; intros n L.
    - exists a. replace n with 0 by lia. constructor.
    - destruct n as [|n]; [exists a; constructor|]. destruct (IH n) as (z & Wz); [lia|]. exists z. eapply walk_step; eauto.
  Qed.
  Lemma endless_not_short a n : endless R a -> ~ short n a.
  Proof.
    intros (m & c & W & L) S. destruct (loop_walks c L n) as (y & Wy). pose proof (walk_trans _ _ _ _ _ W Wy) as K.
    assert (H : forall k n a y, n <= k -> walk R k a y -> exists z, walk R n a z).
    { clear. intros k n a y Hn W. revert n Hn. induction W as [a|k a b y H W IH]; intros n Hn.
      - exists a. replace n with 0 by lia. constructor.
      - destruct n as [|n]; [exists a; constructor|]. destruct (IH n) as (z & Wz); [lia|]. exists z. eapply walk_step; eauto. }
    destruct (H (m + n) n a y ltac:(lia) K) as (z & Wz). exact (S z Wz).
  Qed.
  (** One search from one class. *)
  Lemma search_ends a b : leads R a b \/ ~ endless R a -> exists fuel0 v, (forall fuel, fuel0 <= fuel -> search ord g b fuel [a] = Ok v) /\ (v = true <-> leads R a b).
  Proof.
    intros H. assert (K : exists fuel v, search ord g b fuel [a] = Ok v).
    { destruct H as [(n & W)|H].
      - assert (X : exists y, walk R n a y /\ R y b).
        { clear -W. revert a W. induction n as [|n IH]; intros a W; inversion W as [|n' x' w y' Hw W']; subst.
          - inversion W'; subst. exists a. split; [constructor|exact Hw].
          - destruct (IH w W') as (y & W1 & W2). exists y. split; [eapply walk_step; eauto|exact W2]. }
        destruct X as (y & W1 & W2). destruct (found b n [] a [] y W1 W2) as [fuel Hf]. exists fuel, true. exact Hf.
      - apply (stops b (S (length (w3_classes ord rel)))). intros x [<-|[]]. apply ends_short, H. }
    destruct K as (fuel0 & v & E). exists fuel0, v. split.
    - intros fuel L. replace fuel with (fuel0 + (fuel - fuel0)) by lia. apply search_more, E.
    - destruct v.
      + split; [intros _|reflexivity]. destruct (search_true _ _ _ E) as (x & [<-|[]] & X). exact X.
      + split; [discriminate|]. intros X. exfalso. apply (proj2 (search_false _ _ _ E a (or_introl eq_refl))), X.
  Qed.
  Lemma search_diverges a b fuel : ~ leads R a b -> endless R a -> search ord g b fuel [a] = Err Diverges.
  Proof.
    intros H K. destruct (search ord g b fuel [a]) as [[]|e] eqn:E.
    - destruct (search_true _ _ _ E) as (x & [<-|[]] & X). contradiction.
    - exfalso. apply (endless_not_short a fuel K). apply (search_false _ _ _ E a (or_introl eq_refl)).
    - apply search_err in E. subst e. reflexivity.
  Qed.

  (** The whole closure. *)
  Definition searched (a b : pystr) : Prop := touched rel a /\ touched rel b /\ ~ R a b.
  Definition fine_pair (ab : pystr * pystr) : Prop := R (fst ab) (snd ab) \/ leads R (fst ab) (snd ab) \/ ~ endless R (fst ab).
  Lemma pairs_end ps : (forall ab, In ab ps -> fine_pair ab) -> exists fuel0, forall c0, exists c, (forall fuel, fuel0 <= fuel -> loopM (closure_step ord g fuel) ps c0 = Ok c) /\
    forall a b, child c a b <-> child c0 a b \/ (In (a, b) ps /\ ~ R a b /\ leads R a b).
  Proof.
    induction ps as [|[a b] ps IH]; intros H.
    - exists 0. intros c0. exists c0. split; [reflexivity|]. cbn [In]. tauto.
    - destruct IH as (f0 & IH); [intros ab Hab; apply H; right; exact Hab|].
      assert (Hab := H (a, b) (or_introl eq_refl)). unfold fine_pair in Hab. cbn [fst snd] in Hab.
      assert (Eq : forall x y, (a, b) = (x, y) <-> (x, y) = (a, b)) by (intros; split; congruence).
      destruct (has_child g a b) eqn:Eh.
      + exists f0. intros c0. destruct (IH c0) as (c & E & Hc). exists c. split.
        * intros fuel L. rewrite loopM_cons. unfold closure_step at 1. cbn [fst snd]. rewrite Eh. cbn [bind]. apply E, L.
        * apply has_child_proof, graph_proof in Eh. intros x y. rewrite Hc. cbn [In]. rewrite Eq. split; [tauto|]. intros [X|([X|X] & Y)]; [auto| |auto]. injection X as -> ->. tauto.
      + assert (Nr : ~ R a b) by (rewrite <- graph_proof, <- has_child_proof; congruence).
        destruct (search_ends a b) as (f1 & v & E1 & Hv); [tauto|]. exists (max f0 f1). intros c0.
        destruct (IH (if v then put_child c0 a b else c0)) as (c & E & Hc). exists c. split.
        * intros fuel L. rewrite loopM_cons. unfold closure_step at 1. cbn [fst snd]. rewrite Eh, E1 by lia. cbn [bind]. apply E. lia.
        * intros x y. rewrite Hc. cbn [In]. rewrite Eq. destruct v.
          -- rewrite put_child_proof. split; [|intros [X|([X|X] & Y)]; auto]. intros [[X|X]|X]; [|auto|tauto]. right. injection X as -> ->. split; [auto|]. split; [exact Nr|apply Hv; reflexivity].
          -- split; [tauto|]. intros [X|([X|X] & Y)]; [auto| |auto]. injection X as -> ->. exfalso. destruct Y as [_ Y]. apply Hv in Y. discriminate.
  Qed.
  Lemma pairs_in a b : In (a, b) (list_prod (ord 64 _ (w3_classes ord rel)) (ord 65 _ (w3_classes ord rel))) <-> touched rel a /\ touched rel b.
  Proof. rewrite in_prod_iff, (oi 64), (oi 65), !w3_classes_proof. tauto. Qed.
  Definition all_end : Prop := forall a b, searched a b -> leads R a b \/ ~ endless R a.
  Lemma R_dec a b : R a b \/ ~ R a b.
  Proof. unfold R. destruct (in_dec pair_eq_dec (a, b) rel); auto. Qed.
  Lemma closure_proof : all_end -> exists fuel0 c, (forall fuel, fuel0 <= fuel -> w3_closure ord fuel rel = Ok c) /\ forall a b, has_child c a b = true <-> searched a b /\ leads R a b.
  Proof.
    intros H. unfold w3_closure. cbn zeta. fold g. destruct (pairs_end (list_prod (ord 64 _ (w3_classes ord rel)) (ord 65 _ (w3_classes ord rel)))) as (f0 & K).
    - intros [a b] Hab. apply pairs_in in Hab. unfold fine_pair. cbn [fst snd]. destruct (R_dec a b) as [X|X]; [auto|]. right. apply H. unfold searched. tauto.
    - destruct (K []) as (c & E & Hc). exists f0, c. split; [exact E|]. intros a b. rewrite has_child_proof, Hc, pairs_in. unfold searched. split; [|tauto]. intros [(l & X & _)|X]; [discriminate|tauto].
  Qed.
  Lemma loopM_fails {A S} (f : S -> A -> result S) l x : In x l -> (forall s y, f s y = Err Diverges \/ exists s', f s y = Ok s') -> (forall s, f s x = Err Diverges) -> forall s, loopM f l s = Err Diverges.
  Proof.
    intros Hx T F. induction l as [|y l IH]; [destruct Hx|]. intros s. rewrite loopM_cons. destruct Hx as [->|Hx]; [rewrite F; reflexivity|].
    destruct (T s y) as [->|(s' & ->)]; [reflexivity|]. cbn [bind]. apply IH, Hx.
  Qed.
  Lemma step_total fuel s y : closure_step ord g fuel s y = Err Diverges \/ exists s', closure_step ord g fuel s y = Ok s'.
  Proof.
    unfold closure_step. destruct (has_child g (fst y) (snd y)); [right; eauto|]. destruct (search ord g (snd y) fuel [fst y]) as [v|e] eqn:E; cbn [bind]; [right; eauto|].
    apply search_err in E. subst e. auto.
  Qed.
  Lemma closure_diverges a b fuel : searched a b -> ~ leads R a b -> endless R a -> w3_closure ord fuel rel = Err Diverges.
  Proof.
    intros (T1 & T2 & N) H K. unfold w3_closure. cbn zeta. fold g. apply (loopM_fails _ _ (a, b)).
    - apply pairs_in. auto.
    - intros s y. apply step_total.
    - intros s. unfold closure_step. cbn [fst snd]. destruct (has_child g a b) eqn:E; [apply has_child_proof, graph_proof in E; contradiction|]. rewrite (search_diverges a b fuel H K). reflexivity.
  Qed.
  Lemma pairs_only ps fuel : forall c0 c, loopM (closure_step ord g fuel) ps c0 = Ok c -> (forall a b, child c0 a b -> ~ R a b) -> forall a b, child c a b -> ~ R a b.
  Proof.
    induction ps as [|[x y] ps IH]; intros c0 c E H; [injection E as <-; exact H|]. rewrite loopM_cons in E. unfold closure_step at 1 in E. cbn [fst snd] in E.
    destruct (has_child g x y) eqn:Eh; cbn [bind] in E; [apply (IH _ _ E H)|]. destruct (search ord g y fuel [x]) as [v|e]; cbn [bind] in E; [|discriminate]. apply (IH _ _ E).
    destruct v; [|exact H]. intros a b Hc. apply put_child_proof in Hc. destruct Hc as [Hc|Hc]; [|apply H, Hc]. injection Hc as -> ->. rewrite <- graph_proof, <- has_child_proof. congruence.
  Qed.
  Lemma reduce_nothing fuel r : reduce_w3 ord fuel rel = Ok r -> r = rel.
  Proof.
    unfold reduce_w3. destruct (w3_closure ord fuel rel) as [c|e] eqn:E; cbn [bind]; [|discriminate]. intros H. injection H as <-. unfold eliminate_rule_2. cbn zeta.
    assert (N : forall a b, child c a b -> ~ R a b).
    { unfold w3_closure in E. cbn zeta in E. fold g in E. apply (pairs_only _ _ _ _ E). intros a b (l & X & _). discriminate. }
    set (rm := filter _ (ord 66 _ rel)). assert (Hr : rm = []).
    { destruct rm as [|[a b] q] eqn:Er; [reflexivity|]. exfalso. assert (X : In (a, b) rm) by (rewrite Er; left; reflexivity). unfold rm in X. apply filter_In in X. destruct X as [X1 X2].
      apply (proj1 (oi 66 _ _)) in X1. cbn [fst snd] in X2. apply has_child_proof in X2. exact (N a b X2 X1). }
    rewrite Hr. clear. induction rel as [|x l IH]; [reflexivity|]. cbn [filter in_dec list_rec list_rect]. f_equal. exact IH.
  Qed.
  Lemma pairs_ended ps fuel : forall c0 c, loopM (closure_step ord g fuel) ps c0 = Ok c -> forall a b, In (a, b) ps -> ~ R a b -> leads R a b \/ ~ endless R a.
  Proof.
    induction ps as [|[x y] ps IH]; intros c0 c E a b H N; [destruct H|]. rewrite loopM_cons in E. destruct (closure_step ord g fuel c0 (x, y)) as [c1|e] eqn:E1; cbn [bind] in E; [|discriminate].
    destruct H as [H|H]; [|apply (IH _ _ E a b H N)]. injection H as -> ->. unfold closure_step in E1. cbn [fst snd] in E1.
    destruct (has_child g a b) eqn:Eh; [apply has_child_proof, graph_proof in Eh; contradiction|]. destruct (search ord g b fuel [a]) as [[]|e] eqn:Es; cbn [bind] in E1; [| |discriminate].
    - left. destruct (search_true _ _ _ Es) as (z & [<-|[]] & X). exact X.
    - right. intros K. apply (endless_not_short a fuel K). apply (search_false _ _ _ Es a (or_introl eq_refl)).
  Qed.
  Lemma ended fuel c : w3_closure ord fuel rel = Ok c -> all_end.
  Proof. unfold w3_closure. cbn zeta. fold g. intros E a b (T1 & T2 & N). apply (pairs_ended _ _ _ _ E a b); [apply pairs_in; auto|exact N]. Qed.
  Lemma closure_err fuel e : w3_closure ord fuel rel = Err e -> e = Diverges.
  Proof.
    unfold w3_closure. cbn zeta. fold g. generalize (list_prod (ord 64 _ (w3_classes ord rel)) (ord 65 _ (w3_classes ord rel))) (@nil (pystr * list pystr)).
    induction l as [|y ps IH]; intros c0 E; [discriminate|]. rewrite loopM_cons in E. destruct (step_total fuel c0 y) as [F|(s & F)]; rewrite F in E; cbn [bind] in E; [congruence|]. apply (IH s E).
  Qed.
End Closure.
