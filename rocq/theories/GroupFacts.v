(** The dictionary grouping idiom (d[k].append(x) / d[k] = [x]) characterised. *)
From Coq Require Import Permutation.
From Verif Require Import Py PyFacts.

Section Group.
  Context {K A : Type}.
  Variable eqd : forall a b : K, {a = b} + {a <> b}.
  Variable f : A -> K.

  Definition keyb (k : K) (x : A) : bool := if eqd (f x) k then true else false.

  Lemma keyb_true k x : keyb k x = true <-> f x = k.
  Proof. unfold keyb; destruct (eqd (f x) k); split; intros; congruence. Qed.

  Definition group (l : list A) (d : dict K (list A)) : dict K (list A) :=
    fold_left (fun d x => dpush eqd d (f x) x) l d.

  Lemma group_dget l d k :
    dget eqd (group l d) k =
    match dget eqd d k, filter (keyb k) l with
    | None, [] => None
    | None, ys => Some ys
    | Some v, ys => Some (v ++ ys)
    end.
  Proof.
    revert d; induction l as [|x l IH]; intros d; cbn.
    - destruct (dget eqd d k); [rewrite app_nil_r|]; reflexivity.
    - unfold group in IH. rewrite IH, dget_dpush.
      assert (Ek : keyb k x = if eqd (f x) k then true else false) by reflexivity.
      rewrite Ek. clear Ek. destruct (eqd (f x) k) as [<-|Hn].
      + destruct (dget eqd d (f x)) as [v|]; cbn [app].
        * rewrite <- app_assoc; reflexivity.
        * destruct (filter (keyb (f x)) l); reflexivity.
      + destruct (dget eqd d k); reflexivity.
  Qed.

  Lemma group_NoDup l d : NoDup (dkeys d) -> NoDup (dkeys (group l d)).
  Proof.
    revert d; induction l as [|x l IH]; intros d H; cbn; [exact H|].
    apply IH, dpush_NoDup, H.
  Qed.

  Lemma group_keys l d k : In k (dkeys (group l d)) <-> In k (dkeys d) \/ In k (map f l).
  Proof.
    revert d; induction l as [|x l IH]; intros d; [cbn; tauto|].
    change (group (x :: l) d) with (group l (dpush eqd d (f x) x)).
    rewrite IH, dpush_keys. cbn. intuition congruence.
  Qed.

  (** As a list: one entry per distinct key, holding the matching elements in order. *)
  Lemma group_list l :
    group l [] = map (fun k => (k, filter (keyb k) l)) (dkeys (group l [])).
  Proof.
    pose proof (group_NoDup l [] (NoDup_nil _)) as Hnd.
    assert (Hv : forall k v, In (k, v) (group l []) -> v = filter (keyb k) l).
    { intros k v Hin. apply (In_dget eqd) in Hin; [|exact Hnd].
      rewrite group_dget in Hin. cbn in Hin.
      destruct (filter (keyb k) l); congruence. }
    revert Hv. generalize (group l []) as d. unfold dkeys.
    induction d as [|[k v] d IH]; intros Hv; cbn; [reflexivity|].
    f_equal.
    - f_equal. apply Hv; left; reflexivity.
    - apply IH. intros; apply Hv; right; assumption.
  Qed.

  Lemma filter_none {B} (p : B -> bool) l : (forall x, In x l -> p x = false) -> filter p l = [].
  Proof.
    induction l as [|x l IH]; intros H; cbn; [reflexivity|].
    rewrite (H x (or_introl eq_refl)). apply IH; intros; apply H; right; assumption.
  Qed.

  Lemma filter_all {B} (p : B -> bool) l : (forall x, In x l -> p x = true) -> filter p l = l.
  Proof.
    induction l as [|x l IH]; intros H; cbn; [reflexivity|].
    rewrite (H x (or_introl eq_refl)). f_equal. apply IH; intros; apply H; right; assumption.
  Qed.

  (** Concatenating the classes of a duplicate free, covering list of keys permutes the list. *)
  Lemma classes_perm ks l :
    NoDup ks -> (forall x, In x l -> In (f x) ks) ->
    Permutation (concat (map (fun k => filter (keyb k) l) ks)) l.
  Proof.
    intros Hnd. induction l as [|x l IH]; intros Hc.
    - replace (concat (map (fun k => filter (keyb k) []) ks)) with (@nil A); [constructor|].
      clear. induction ks; cbn; auto.
    - assert (IHl := IH (fun y Hy => Hc y (or_intror Hy))). clear IH.
      assert (Hx : In (f x) ks) by (apply Hc; left; reflexivity).
      apply in_split in Hx. destruct Hx as [k1 [k2 E]].
      rewrite E in *. rewrite map_app, concat_app in *. cbn [map concat] in *.
      pose proof (NoDup_remove_2 _ _ _ Hnd) as Hni.
      assert (Hsame : forall ks', ~ In (f x) ks' ->
                map (fun k => filter (keyb k) (x :: l)) ks' = map (fun k => filter (keyb k) l) ks').
      { intros ks' H. apply map_ext_in. intros k Hk. cbn.
        destruct (keyb k x) eqn:Ek; [|reflexivity].
        apply keyb_true in Ek. subst k. contradiction. }
      rewrite !Hsame by (intros H; apply Hni; apply in_or_app; auto).
      cbn [filter].
      assert (Ex : keyb (f x) x = true) by (apply keyb_true; reflexivity).
      rewrite Ex. cbn [app].
      etransitivity; [symmetry; apply Permutation_middle|].
      constructor. exact IHl.
  Qed.
End Group.
