(** The repeats which the suffix tree finds. *)
From Verif Require Import Py PyFacts RInfoSpec SufModel SufSpec SufProofs1 SufProofs2 SufProofs3 SufProofs4.
From Coq Require Import Permutation Sorting.Sorted.

Definition pos (n : nat) : option nat := if n =? 0 then None else Some n.
Lemma increase_by_dset m ec : increase_by m ec = dset oeq_dec m (fst ec) (match dget oeq_dec m (fst ec) with Some v => v | None => 0 end + snd ec).
Proof. unfold increase_by. now destruct (dget oeq_dec m (fst ec)). Qed.
Lemma fold_increase : forall e m, NoDup (dkeys e) -> NoDup (dkeys m) ->
  NoDup (dkeys (fold_left increase_by e m)) /\
  forall x, dget oeq_dec (fold_left increase_by e m) x =
    match dget oeq_dec e x with None => dget oeq_dec m x | Some c => Some (match dget oeq_dec m x with Some v => v | None => 0 end + c) end.
Proof.
  induction e as [|(y, c) e IH]; intros m He Hm; [ easy | ]. cbn [fold_left]. rewrite increase_by_dset. cbn [fst snd].
  apply NoDup_cons_iff in He. destruct He as (He1 & He2).
  destruct (IH (dset oeq_dec m y (match dget oeq_dec m y with Some v => v | None => 0 end + c)) He2 ltac:(now apply dset_NoDup)) as (I1 & I2).
  split; [ exact I1 | ]. intros x. rewrite I2. cbn [dget]. rewrite dget_dset.
  destruct (oeq_dec y x) as [->|Hy].
  - destruct (oeq_dec x x) as [_|]; [ | easy ]. destruct (dget oeq_dec e x) eqn:E; [ | easy ]. elim He1. apply dget_In in E. apply in_map_iff. now exists (x, n).
  - destruct (oeq_dec x y) as [->|_]; [ easy | ]. reflexivity.
Qed.
Lemma dget_perm {K V} (eqd : forall a b : K, {a = b} + {a <> b}) (d d' : dict K V) x : Permutation d d' -> NoDup (dkeys d) -> dget eqd d x = dget eqd d' x.
Proof.
  intros P H. assert (H' : NoDup (dkeys d')) by (eapply Permutation_NoDup; [ apply Permutation_map; exact P | exact H ]).
  destruct (dget eqd d x) as [v|] eqn:E.
  - symmetry. apply In_dget; [ easy | ]. eapply Permutation_in; [ exact P | ]. now apply (dget_In eqd).
  - destruct (dget eqd d' x) as [v|] eqn:E'; [ | easy ]. apply (dget_In eqd) in E'. apply (Permutation_in _ (Permutation_sym P)) in E'.
    apply (In_dget eqd) in E'; [ congruence | easy ].
Qed.

Section Counts.
  Variable lf : nat -> option N.
  (** A map which counts how often each value of [lf] is there. *)
  Definition counts (m : dict (option N) nat) (ls : list nat) : Prop :=
    NoDup (dkeys m) /\ forall x, dget oeq_dec m x = pos (count_occ oeq_dec (map lf ls) x).
  Lemma counts_app m ls m' ls' e : counts m ls -> counts m' ls' -> Permutation e m' -> counts (fold_left increase_by e m) (ls ++ ls').
  Proof.
    intros (H1 & H2) (H3 & H4) P.
    assert (He : NoDup (dkeys e)) by (eapply Permutation_NoDup; [ apply Permutation_map; symmetry; exact P | exact H3 ]).
    destruct (fold_increase e m He H1) as (I1 & I2). split; [ exact I1 | ]. intros x. rewrite I2, (dget_perm _ _ _ x P He), H2, H4.
    rewrite map_app, count_occ_app. unfold pos. generalize (count_occ oeq_dec (map lf ls) x) (count_occ oeq_dec (map lf ls') x). intros a b.
    destruct a, b; cbn; rewrite ?Nat.add_0_r; easy.
  Qed.
  Lemma counts_keys m ls x : counts m ls -> In x (dkeys m) <-> exists s, In s ls /\ lf s = x.
  Proof.
    intros (H1 & H2). transitivity (count_occ oeq_dec (map lf ls) x > 0).
    - specialize (H2 x). unfold pos in H2. destruct (count_occ oeq_dec (map lf ls) x =? 0) eqn:E.
      + apply Nat.eqb_eq in E. apply dget_None in H2. split; [ easy | lia ].
      + apply Nat.eqb_neq in E. split; [ lia | ]. intros _. apply dget_In in H2. apply in_map_iff. eexists. split; [ | exact H2 ]. easy.
    - rewrite <- count_occ_In. rewrite in_map_iff. split; intros (s & A & B); eauto.
  Qed.
  Lemma count_one ls s : NoDup ls -> In s ls -> count_occ oeq_dec (map lf ls) (lf s) = 1 <-> forall t, In t ls -> t <> s -> lf t <> lf s.
  Proof.
    intros N H. apply in_split in H. destruct H as (l1 & l2 & ->). rewrite map_app. cbn [map]. rewrite count_occ_app. cbn [count_occ].
    destruct (oeq_dec (lf s) (lf s)) as [_|]; [ | easy ]. apply NoDup_remove in N. destruct N as (_ & N). split.
    - intros E t Ht Hts El. apply in_app_iff in Ht. destruct Ht as [Ht|[->|Ht]]; [ | easy | ].
      + apply (in_map lf) in Ht. rewrite El in Ht. apply (count_occ_In oeq_dec) in Ht. lia.
      + apply (in_map lf) in Ht. rewrite El in Ht. apply (count_occ_In oeq_dec) in Ht. lia.
    - intros E. assert (Z : forall l, (forall t, In t l -> In t (l1 ++ l2)) -> count_occ oeq_dec (map lf l) (lf s) = 0).
      { intros l Hl. apply count_occ_not_In. intros I. apply in_map_iff in I. destruct I as (t & I1 & I2). apply Hl in I2.
        apply (E t); [ | intros ->; now apply N | easy ]. apply in_app_iff in I2. apply in_app_iff. cbn. tauto. }
      rewrite !Z; [ easy | | ]; intros t Ht; apply in_app_iff; auto.
  Qed.
  Lemma same_keys_false m1 l1 m2 l2 : counts m1 l1 -> counts m2 l2 -> same_keys m1 m2 = false <->
    (exists s, In s l1 /\ (lf s = None \/ forall u, In u l2 -> lf u <> lf s)) \/ (exists s, In s l2 /\ (lf s = None \/ forall u, In u l1 -> lf u <> lf s)).
  Proof.
    intros C1 C2. unfold same_keys.
    assert (G : forall m l m' l', counts m l -> counts m' l' ->
      forallb (fun k => match k with None => false | Some _ => dmem oeq_dec m' k end) (dkeys m) = false <-> exists s, In s l /\ (lf s = None \/ forall u, In u l' -> lf u <> lf s)).
    { intros m l m' l' C C'. split.
      - intros F. assert (E : exists x, In x (dkeys m) /\ (match x with None => false | Some _ => dmem oeq_dec m' x end) = false).
        { induction (dkeys m) as [|x xs IH]; [ easy | ]. cbn in F. apply andb_false_iff in F. destruct F as [F|F]; [ exists x; split; [ now left | easy ] | ].
          destruct (IH F) as (y & Y1 & Y2). exists y. split; [ now right | easy ]. }
        destruct E as (x & E1 & E2). apply (counts_keys m l x C) in E1. destruct E1 as (s & S1 & S2). exists s. split; [ easy | ]. rewrite S2.
        destruct x as [x|]; [ right | now left ]. intros u Hu Eu. unfold dmem in E2. destruct (dget oeq_dec m' (Some x)) eqn:Eg; [ easy | ].
        apply dget_None in Eg. apply Eg. apply (counts_keys m' l' _ C'). eauto.
      - intros (s & S1 & S2). apply not_true_iff_false. intros F. rewrite forallb_forall in F.
        assert (K : In (lf s) (dkeys m)) by (apply (counts_keys m l _ C); eauto). specialize (F _ K).
        destruct (lf s) as [x|] eqn:E; [ | easy ]. destruct S2 as [S2|S2]; [ easy | ].
        unfold dmem in F. destruct (dget oeq_dec m' (Some x)) eqn:Eg; [ | easy ].
        assert (K' : In (Some x) (dkeys m')) by (apply dget_In in Eg; apply in_map_iff; eexists; split; [ | exact Eg ]; easy).
        apply (counts_keys m' l' _ C') in K'. destruct K' as (u & U1 & U2). now apply (S2 u). }
    rewrite andb_false_iff, (G m1 l1 m2 l2 C1 C2), (G m2 l2 m1 l1 C2 C1). tauto.
  Qed.
End Counts.
