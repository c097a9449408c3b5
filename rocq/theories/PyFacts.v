(** Lemmas about the Python data of Py.v. *)
From Coq Require Import Permutation.
From Verif Require Import Py.

Lemma str_eqb_eq a b : str_eqb a b = true <-> a = b.
Proof. unfold str_eqb; destruct (str_eq_dec a b); split; intros; congruence. Qed.

Lemma str_eqb_refl a : str_eqb a a = true.
Proof. apply str_eqb_eq; reflexivity. Qed.

Lemma str_eqb_neq a b : str_eqb a b = false <-> a <> b.
Proof. unfold str_eqb; destruct (str_eq_dec a b); split; intros; congruence. Qed.

Lemma mapM_ok {A B} (f : A -> result B) (g : A -> B) l :
  (forall x, In x l -> f x = Ok (g x)) -> mapM f l = Ok (map g l).
Proof.
  induction l as [|x l IH]; intros H; cbn; [reflexivity|].
  rewrite (H x (or_introl eq_refl)); cbn.
  rewrite IH by (intros; apply H; right; assumption). reflexivity.
Qed.

Lemma mapM_ok_inv {A B} (f : A -> result B) l ys :
  mapM f l = Ok ys -> Forall2 (fun x y => f x = Ok y) l ys.
Proof.
  revert ys; induction l as [|x l IH]; cbn; intros ys H.
  - injection H as <-; constructor.
  - destruct (f x) as [y|] eqn:E; cbn in H; [|discriminate].
    destruct (mapM f l) as [ys'|] eqn:E2; cbn in H; [|discriminate].
    injection H as <-. constructor; [assumption|]. apply IH; reflexivity.
Qed.

Lemma filterM_ok {A} (f : A -> result bool) (g : A -> bool) l :
  (forall x, In x l -> f x = Ok (g x)) -> filterM f l = Ok (filter g l).
Proof.
  induction l as [|x l IH]; intros H; cbn; [reflexivity|].
  rewrite (H x (or_introl eq_refl)); cbn.
  rewrite IH by (intros; apply H; right; assumption). reflexivity.
Qed.

Section DictFacts.
  Context {K V : Type}.
  Variable eqd : forall a b : K, {a = b} + {a <> b}.
  Implicit Type d : dict K V.

  Lemma dget_dset_same d k v : dget eqd (dset eqd d k v) k = Some v.
  Proof.
    induction d as [|[k' v'] d IH]; cbn.
    - destruct (eqd k k); congruence.
    - destruct (eqd k k') as [->|Hn]; cbn.
      + destruct (eqd k' k'); congruence.
      + destruct (eqd k k'); [contradiction|exact IH].
  Qed.

  Lemma dget_dset_other d k k2 v : k <> k2 -> dget eqd (dset eqd d k v) k2 = dget eqd d k2.
  Proof.
    intros Hk. induction d as [|[k' v'] d IH]; cbn.
    - destruct (eqd k2 k); congruence.
    - destruct (eqd k k') as [->|Hn]; cbn.
      + destruct (eqd k2 k'); congruence.
      + destruct (eqd k2 k'); [reflexivity|exact IH].
  Qed.

  Lemma dget_dset d k k2 v :
    dget eqd (dset eqd d k v) k2 = if eqd k k2 then Some v else dget eqd d k2.
  Proof.
    destruct (eqd k k2) as [->|Hn].
    - apply dget_dset_same.
    - apply dget_dset_other; assumption.
  Qed.

  Lemma dget_In d k v : dget eqd d k = Some v -> In (k, v) d.
  Proof.
    induction d as [|[k' v'] d IH]; cbn; [discriminate|].
    destruct (eqd k k') as [->|Hn]; intros H.
    - left; congruence.
    - right; auto.
  Qed.

  Lemma dget_None d k : dget eqd d k = None <-> ~ In k (dkeys d).
  Proof.
    unfold dkeys. induction d as [|[k' v'] d IH]; cbn; [tauto|].
    destruct (eqd k k') as [->|Hn].
    - split; [discriminate|]. intros H; exfalso; apply H; left; reflexivity.
    - rewrite IH; split; [intros H [H1|H1]; [congruence|tauto] | tauto].
  Qed.

  Lemma dget_Some_key d k : In k (dkeys d) <-> exists v, dget eqd d k = Some v.
  Proof.
    destruct (dget eqd d k) as [v|] eqn:E.
    - split; [eauto|]. intros _. apply dget_In in E. apply (in_map fst) in E. exact E.
    - apply dget_None in E. split; [tauto|]. intros [v Hv]; discriminate.
  Qed.

  Lemma dmem_In d k : dmem eqd d k = true <-> In k (dkeys d).
  Proof.
    unfold dmem. rewrite dget_Some_key. destruct (dget eqd d k); split; intros; eauto; try discriminate.
    destruct H as [v H]; discriminate.
  Qed.

  Lemma In_dget d k v : NoDup (dkeys d) -> In (k, v) d -> dget eqd d k = Some v.
  Proof.
    unfold dkeys. induction d as [|[k' v'] d IH]; cbn; intros Hnd Hin; [contradiction|].
    inversion Hnd as [|? ? Hni Hnd']; subst.
    destruct Hin as [H|H].
    - injection H as -> ->. destruct (eqd k k); congruence.
    - destruct (eqd k k') as [->|Hn]; [|auto].
      exfalso; apply Hni. apply (in_map fst) in H; exact H.
  Qed.

  Lemma dkeys_dset d k v :
    dkeys (dset eqd d k v) = if dmem eqd d k then dkeys d else dkeys d ++ [k].
  Proof.
    unfold dkeys, dmem. induction d as [|[k' v'] d IH]; cbn; [reflexivity|].
    destruct (eqd k k') as [->|Hn]; cbn; [reflexivity|].
    rewrite IH. destruct (dget eqd d k); reflexivity.
  Qed.

  Lemma dset_In_keys d k v k2 : In k2 (dkeys (dset eqd d k v)) <-> k2 = k \/ In k2 (dkeys d).
  Proof.
    rewrite dkeys_dset. destruct (dmem eqd d k) eqn:E.
    - apply dmem_In in E. split; [auto|]. intros [->|H]; assumption.
    - rewrite in_app_iff; cbn. intuition congruence.
  Qed.

  Lemma dset_NoDup d k v : NoDup (dkeys d) -> NoDup (dkeys (dset eqd d k v)).
  Proof.
    intros H. rewrite dkeys_dset. destruct (dmem eqd d k) eqn:E; [assumption|].
    apply Permutation_NoDup with (l := k :: dkeys d).
    - apply Permutation_cons_append.
    - constructor; [|assumption]. rewrite <- dmem_In, E; discriminate.
  Qed.

  Lemma ddel_keys_In d k k2 : NoDup (dkeys d) -> (In k2 (dkeys (ddel eqd d k)) <-> k2 <> k /\ In k2 (dkeys d)).
  Proof.
    unfold dkeys. induction d as [|[k' v'] d IH]; cbn; intros Hnd; [tauto|].
    inversion Hnd as [|? ? Hni Hnd']; subst.
    destruct (eqd k k') as [->|Hn]; cbn.
    - split; [|intros [H1 [H2|H2]]; congruence || assumption].
      intros H; split; [|tauto]. intros ->; contradiction.
    - rewrite (IH Hnd'). intuition congruence.
  Qed.

  Lemma ddel_NoDup d k : NoDup (dkeys d) -> NoDup (dkeys (ddel eqd d k)).
  Proof.
    unfold dkeys. induction d as [|[k' v'] d IH]; cbn; intros Hnd; [constructor|].
    inversion Hnd as [|? ? Hni Hnd']; subst.
    destruct (eqd k k') as [->|Hn]; cbn; [assumption|].
    constructor; [|auto]. intros H. apply Hni.
    apply (ddel_keys_In d k k' Hnd') in H. tauto.
  Qed.

  Lemma dget_ddel d k k2 : NoDup (dkeys d) ->
    dget eqd (ddel eqd d k) k2 = if eqd k k2 then None else dget eqd d k2.
  Proof.
    unfold dkeys. induction d as [|[k' v'] d IH]; cbn; intros Hnd.
    - destruct (eqd k k2); reflexivity.
    - inversion Hnd as [|? ? Hni Hnd']; subst.
      destruct (eqd k k') as [->|Hn]; cbn.
      + destruct (eqd k' k2) as [->|Hn2].
        * apply dget_None. exact Hni.
        * destruct (eqd k2 k'); congruence.
      + destruct (eqd k2 k') as [->|Hn2].
        * destruct (eqd k k'); congruence.
        * apply IH; assumption.
  Qed.
End DictFacts.

Section PushFacts.
  Context {K V : Type}.
  Variable eqd : forall a b : K, {a = b} + {a <> b}.
  Implicit Type d : dict K (list V).

  Lemma dget_dpush d k v k2 :
    dget eqd (dpush eqd d k v) k2 =
    if eqd k k2 then Some (match dget eqd d k with Some l => l | None => [] end ++ [v])
    else dget eqd d k2.
  Proof.
    unfold dpush. destruct (dget eqd d k) as [l|] eqn:E; rewrite dget_dset;
      destruct (eqd k k2); reflexivity.
  Qed.

  Lemma dpush_NoDup d k v : NoDup (dkeys d) -> NoDup (dkeys (dpush eqd d k v)).
  Proof. intros H. unfold dpush. destruct (dget eqd d k); apply dset_NoDup; exact H. Qed.

  Lemma dpush_keys d k v k2 : In k2 (dkeys (dpush eqd d k v)) <-> k2 = k \/ In k2 (dkeys d).
  Proof. unfold dpush. destruct (dget eqd d k); apply dset_In_keys. Qed.
End PushFacts.

Lemma loopM_cons {A S} (f : S -> A -> result S) x xs s :
  loopM f (x :: xs) s = bind (f s x) (loopM f xs).
Proof. reflexivity. Qed.

Lemma loopM_nil {A S} (f : S -> A -> result S) s : loopM f [] s = Ok s.
Proof. reflexivity. Qed.

Lemma loopM_app {A S} (f : S -> A -> result S) l1 l2 s :
  loopM f (l1 ++ l2) s = bind (loopM f l1 s) (loopM f l2).
Proof.
  revert s; induction l1 as [|x l1 IH]; intros s; [reflexivity|].
  cbn [app]. rewrite !loopM_cons. destruct (f s x) as [s'|e]; cbn [bind]; [apply IH|reflexivity].
Qed.
