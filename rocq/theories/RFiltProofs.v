(** Facts for RFiltProps. *)
From Coq Require Import Sorting.Sorted Permutation Lia.
From Verif Require Import Py PyFacts GroupFacts ReplayModel RPipeModel RFiltModel RFiltSpec.
From Verif Require SufModel.

(** Removal from the back. *)
Lemma remove_at_mid {A} (a b : list A) x : remove_at (a ++ x :: b) (length a) = a ++ b.
Proof. induction a as [|y a IH]; cbn; [reflexivity|now rewrite IH]. Qed.
Lemma set_nth_mid {A} (a b : list A) x v : set_nth (a ++ x :: b) (length a) v = a ++ v :: b.
Proof. induction a as [|y a IH]; cbn; [reflexivity|now rewrite IH]. Qed.
Lemma nth_error_mid {A} (a b : list A) x : nth_error (a ++ x :: b) (length a) = Some x.
Proof. rewrite nth_error_app2, Nat.sub_diag by lia. reflexivity. Qed.

Lemma remove_back_ok {A} (p : A -> result bool) (f : A -> bool) a : forall b,
  (forall x, In x a -> p x = Ok (f x)) ->
  remove_from_back p (length a) (a ++ b) = Ok (filter (fun x => negb (f x)) a ++ b).
Proof.
  induction a as [|x a IH] using rev_ind; intros b H; [reflexivity|].
  rewrite app_length, Nat.add_comm. cbn [Nat.add length remove_from_back]. rewrite <- app_assoc. cbn [app].
  rewrite nth_error_mid, H by (apply in_or_app; right; left; reflexivity). cbn [bind].
  assert (Ha : forall y, In y a -> p y = Ok (f y)) by (intros; apply H, in_or_app; left; assumption).
  rewrite filter_app. cbn [filter]. destruct (f x); cbn [negb].
  - rewrite remove_at_mid, IH by exact Ha. rewrite app_nil_r. reflexivity.
  - rewrite IH by exact Ha. rewrite <- app_assoc. reflexivity.
Qed.
Lemma remove_back_panic {A} (p : A -> result bool) (f : A -> option bool) a : forall b,
  (forall x, p x = SufModel.unwrap (f x)) -> (exists x, In x a /\ f x = None) ->
  remove_from_back p (length a) (a ++ b) = rpanic.
Proof.
  induction a as [|x a IH] using rev_ind; intros b H [y [Hy E]]; [destruct Hy|].
  rewrite app_length, Nat.add_comm. cbn [Nat.add length remove_from_back]. rewrite <- app_assoc. cbn [app].
  rewrite nth_error_mid, H. destruct (f x) as [v|] eqn:Ex; [|reflexivity]. cbn [SufModel.unwrap bind].
  assert (Hex : exists x, In x a /\ f x = None).
  { apply in_app_or in Hy. destruct Hy as [Hy|[<-|[]]]; [exists y; tauto|congruence]. }
  destruct v; [rewrite remove_at_mid|]; apply IH; assumption.
Qed.
Lemma remove_events_ok {A} (p : A -> result bool) (f : A -> bool) a :
  (forall x, In x a -> p x = Ok (f x)) -> remove_events_by p a = Ok (filter (fun x => negb (f x)) a).
Proof. intros H. unfold remove_events_by. rewrite <- (app_nil_r a) at 2. rewrite (remove_back_ok p f) by exact H. now rewrite app_nil_r. Qed.
Lemma remove_events_panic {A} (p : A -> result bool) (f : A -> option bool) a :
  (forall x, p x = SufModel.unwrap (f x)) -> (exists x, In x a /\ f x = None) -> remove_events_by p a = rpanic.
Proof. intros H E. unfold remove_events_by. rewrite <- (app_nil_r a) at 2. apply (remove_back_panic p f); assumption. Qed.

Lemma filter_back_ok {A} (p : A -> result bool) (f : A -> bool) a : forall b,
  (forall t x, In t a -> In x t -> p x = Ok (f x)) ->
  filter_from_back p (length a) (a ++ b) = Ok (without f a ++ b).
Proof.
  induction a as [|t a IH] using rev_ind; intros b H; [reflexivity|].
  rewrite app_length, Nat.add_comm. cbn [Nat.add length filter_from_back]. rewrite <- app_assoc. cbn [app].
  rewrite nth_error_mid.
  rewrite (remove_events_ok p f) by (intros; apply (H t); [apply in_or_app; right; left; reflexivity|assumption]). cbn [bind].
  assert (Ha : forall t x, In t a -> In x t -> p x = Ok (f x)) by (intros ? ? ? ?; eapply H; [apply in_or_app; left; eassumption|assumption]).
  unfold without. rewrite map_app, filter_app. cbn [map filter].
  destruct (filter (fun x => negb (f x)) t) as [|e r] eqn:E; cbn [app].
  - rewrite remove_at_mid, IH by exact Ha. rewrite app_nil_r. reflexivity.
  - rewrite set_nth_mid, IH by exact Ha. rewrite <- app_assoc. reflexivity.
Qed.
Lemma filter_back_panic {A} (p : A -> result bool) (f : A -> option bool) a : forall b,
  (forall x, p x = SufModel.unwrap (f x)) -> (exists t x, In t a /\ In x t /\ f x = None) ->
  filter_from_back p (length a) (a ++ b) = rpanic.
Proof.
  induction a as [|t a IH] using rev_ind; intros b H (u & y & Hu & Hy & E); [destruct Hu|].
  rewrite app_length, Nat.add_comm. cbn [Nat.add length filter_from_back]. rewrite <- app_assoc. cbn [app].
  rewrite nth_error_mid.
  destruct (existsb (fun x => match f x with None => true | _ => false end) t) eqn:Et.
  - rewrite (remove_events_panic p f); [reflexivity|exact H|].
    apply existsb_exists in Et as (x & Hx & Ex). exists x. split; [exact Hx|]. destruct (f x); [discriminate|reflexivity].
  - rewrite (remove_events_ok p (fun x => match f x with Some v => v | None => true end)).
    + assert (Hex : exists t x, In t a /\ In x t /\ f x = None).
      { apply in_app_or in Hu. destruct Hu as [Hu|[<-|[]]]; [exists u, y; tauto|].
        exfalso. apply Bool.not_true_iff_false in Et. apply Et, existsb_exists. exists y. rewrite E. auto. }
      cbn [bind]. destruct (filter _ t); [rewrite remove_at_mid|rewrite set_nth_mid]; apply IH; assumption.
    + intros x Hx. rewrite H. destruct (f x) as [v|] eqn:Ex; [reflexivity|].
      exfalso. apply Bool.not_true_iff_false in Et. apply Et, existsb_exists. exists x. rewrite Ex. auto.
Qed.
Lemma filter_events_ok {A} (p : A -> result bool) (f : A -> bool) a :
  (forall t x, In t a -> In x t -> p x = Ok (f x)) -> filter_events_by p a = Ok (without f a).
Proof. intros H. unfold filter_events_by. rewrite <- (app_nil_r a) at 2. rewrite (filter_back_ok p f) by exact H. now rewrite app_nil_r. Qed.
Lemma filter_events_panic {A} (p : A -> result bool) (f : A -> option bool) a :
  (forall x, p x = SufModel.unwrap (f x)) -> (exists t x, In t a /\ In x t /\ f x = None) -> filter_events_by p a = rpanic.
Proof. intros H E. unfold filter_events_by. rewrite <- (app_nil_r a) at 2. apply (filter_back_panic p f); assumption. Qed.

(** Numbered lists. *)
Definition numbered {A} (lo : nat) (l : list A) : list (nat * A) := combine (seq lo (length l)) l.
Lemma numbered_cons {A} lo x (l : list A) : numbered lo (x :: l) = (lo, x) :: numbered (S lo) l.
Proof. reflexivity. Qed.
Lemma numbered_app {A} (a b : list A) : forall lo, numbered lo (a ++ b) = numbered lo a ++ numbered (lo + length a) b.
Proof.
  induction a as [|x a IH]; intros lo; cbn [app length]; [rewrite Nat.add_0_r; reflexivity|].
  rewrite !numbered_cons, IH. cbn [app]. do 3 f_equal. lia.
Qed.
Lemma numbered_In {A} (l : list A) : forall lo i x, In (i, x) (numbered lo l) <-> lo <= i /\ nth_error l (i - lo) = Some x.
Proof.
  induction l as [|y l IH]; intros lo i x.
  - cbn. split; [intros []|intros [_ H]; destruct (i - lo); discriminate].
  - rewrite numbered_cons. cbn [In]. rewrite IH. split.
    + intros [E|[Hl H]]; [injection E as <- <-; rewrite Nat.sub_diag; auto|].
      split; [lia|]. replace (i - lo) with (S (i - S lo)) by lia. exact H.
    + intros [Hl H]. destruct (Nat.eq_dec i lo) as [->|Hn].
      * rewrite Nat.sub_diag in H. injection H as ->. left; reflexivity.
      * right. split; [lia|]. replace (i - lo) with (S (i - S lo)) in H by lia. exact H.
Qed.
Lemma numbered_fst {A} (l : list A) lo : map fst (numbered lo l) = seq lo (length l).
Proof. revert lo. induction l as [|x l IH]; intros lo; [reflexivity|]. rewrite numbered_cons. cbn. now rewrite IH. Qed.
Lemma numbered_snd {A} (l : list A) lo : map snd (numbered lo l) = l.
Proof. revert lo. induction l as [|x l IH]; intros lo; [reflexivity|]. rewrite numbered_cons. cbn. now rewrite IH. Qed.

Lemma remove_marked_spec {A} m (a : list A) : forall b,
  remove_marked m (length a) (a ++ b) = map snd (filter (fun p => negb (existsb (Nat.eqb (fst p)) m)) (numbered 0 a)) ++ b.
Proof.
  induction a as [|x a IH] using rev_ind; intros b; [reflexivity|].
  rewrite app_length, Nat.add_comm. cbn [Nat.add length remove_marked]. rewrite <- app_assoc. cbn [app].
  rewrite remove_at_mid, numbered_app, filter_app, map_app. cbn [Nat.add numbered length seq combine filter fst].
  destruct (existsb (Nat.eqb (length a)) m); cbn [negb map app].
  - rewrite IH, app_nil_r. reflexivity.
  - rewrite IH, <- app_assoc. reflexivity.
Qed.
Lemma filter_traces_spec {A} (pred : A -> nat -> bool) (l : list A) :
  filter_traces pred l = map snd (filter (fun p => negb (pred (snd p) (fst p))) (numbered 0 l)).
Proof.
  unfold filter_traces. match goal with |- remove_marked ?m _ _ = _ => pose proof (remove_marked_spec m l []) as R end.
  rewrite !app_nil_r in R. rewrite R. clear R. f_equal.
  apply filter_ext_in. intros [i x] Hin. cbn [fst snd]. f_equal.
  apply numbered_In in Hin as [_ Hx]. rewrite Nat.sub_0_r in Hx.
  assert (G : forall js acc, In i (fold_left (fun marked index => match nth_error l index with
                 | Some t => if pred t index then index :: marked else marked | None => marked end) js acc)
              <-> In i acc \/ (In i js /\ pred x i = true)).
  { induction js as [|j js IH]; intros acc; cbn [fold_left In]; [tauto|]. rewrite IH.
    destruct (Nat.eq_dec j i) as [->|Hn].
    - rewrite Hx. destruct (pred x i); cbn [In]; intuition congruence.
    - destruct (nth_error l j) as [t|]; [destruct (pred t j)|]; cbn [In]; intuition congruence. }
  specialize (G (seq 0 (length l)) []). cbn [In] in G.
  assert (Hi : In i (seq 0 (length l))) by (apply in_seq; split; [lia|]; apply nth_error_Some; congruence).
  destruct (pred x i).
  - apply existsb_exists. exists i. split; [apply G; auto|apply Nat.eqb_refl].
  - apply Bool.not_true_iff_false. intros E. apply existsb_exists in E as (j & Hj & Ej). apply Nat.eqb_eq in Ej as <-.
    apply G in Hj. destruct Hj as [[]|[_ E]]. discriminate.
Qed.
Lemma filter_traces_by {A} (f : A -> bool) (l : list A) : filter_traces (fun t _ => f t) l = filter (fun t => negb (f t)) l.
Proof.
  rewrite filter_traces_spec. unfold numbered.
  enough (G : forall lo, map snd (filter (fun p => negb (f (snd p))) (combine (seq lo (length l)) l)) = filter (fun t => negb (f t)) l) by apply G.
  induction l as [|x l IH]; intros lo; [reflexivity|]. cbn [length seq combine filter snd].
  destruct (f x); cbn [negb map snd]; rewrite IH; reflexivity.
Qed.

(** Groups of a list by a key. *)
Lemma filter_stronger {A} (p q : A -> bool) l : (forall x, q x = true -> p x = true) -> filter q (filter p l) = filter q l.
Proof.
  intros H. induction l as [|x l IH]; [reflexivity|]. cbn [filter]. destruct (p x) eqn:Ep; cbn [filter]; rewrite IH; [reflexivity|].
  destruct (q x) eqn:Eq; [|reflexivity]. apply H in Eq. congruence.
Qed.
Section Part.
  Context {A K : Type}.
  Variable eqd : forall a b : K, {a = b} + {a <> b}.
  Definition cls (f : A -> K) (l : list A) (x : A) : list A := filter (keyb eqd f (f x)) l.
  Definition part (f : A -> K) (l : list A) (G : list (list A)) : Prop :=
    Permutation (concat G) l /\ forall g, In g G -> exists x, In x l /\ g = cls f l x.

  Lemma cls_In f l x y : In y (cls f l x) <-> In y l /\ f y = f x.
  Proof. unfold cls. rewrite filter_In, keyb_true. tauto. Qed.
  Lemma cls_same f l x y : f x = f y -> cls f l x = cls f l y.
  Proof. unfold cls. intros ->. reflexivity. Qed.
  Lemma part_of f l G g y : part f l G -> In g G -> In y g -> g = cls f l y.
  Proof. intros [_ H] Hg Hy. destruct (H g Hg) as (x & _ & ->). apply cls_In in Hy as [_ E]. apply cls_same. congruence. Qed.
  Lemma part_mem f l G x : part f l G -> In x l -> In (cls f l x) G.
  Proof.
    intros HP Hx. assert (Hc : In x (concat G)) by (eapply Permutation_in; [apply Permutation_sym, (proj1 HP)|exact Hx]).
    apply in_concat in Hc as (g & Hg & Hin). rewrite <- (part_of f l G g x HP Hg Hin). exact Hg.
  Qed.
  Lemma part_nonempty f l G g : part f l G -> In g G -> g <> [].
  Proof. intros [_ H] Hg E. destruct (H g Hg) as (x & Hx & E'). assert (In x g) by (rewrite E'; apply cls_In; auto). rewrite E in *. contradiction. Qed.
  (** All keys the same. *)
  Lemma part_one f l : l <> [] -> (forall x y, In x l -> In y l -> f x = f y) -> part f l [l].
  Proof.
    intros Hl H. split; [cbn; now rewrite app_nil_r|]. intros g [<-|[]]. destruct l as [|x l]; [congruence|].
    exists x. split; [left; reflexivity|]. symmetry. unfold cls. apply filter_all. intros y Hy. apply keyb_true, H; [exact Hy|left; reflexivity].
  Qed.
  (** A finer key does not split groups of one element. *)
  Lemma part_singles f f' l G : (forall x y, f' x = f' y -> f x = f y) -> part f l G ->
    (forall g, In g G -> length g = 1) -> part f' l G.
  Proof.
    intros Hf HP H1. split; [apply HP|]. intros g Hg. destruct (proj2 HP g Hg) as (x & Hx & E). exists x. split; [exact Hx|].
    specialize (H1 g Hg). assert (Hin : In x g) by (rewrite E; apply cls_In; auto).
    destruct g as [|z [|]]; try discriminate. destruct Hin as [<-|[]].
    assert (C : cls f' l z = filter (keyb eqd f' (f' z)) (cls f l z)).
    { unfold cls. symmetry. apply filter_stronger. intros w Ew. apply keyb_true. apply keyb_true in Ew. apply Hf, Ew. }
    rewrite C, <- E. cbn [filter]. assert (T : keyb eqd f' (f' z) z = true) by (apply keyb_true; reflexivity). rewrite T. reflexivity.
  Qed.
  Lemma perm_concat (X Y : list (list A)) : Permutation X Y -> Permutation (concat X) (concat Y).
  Proof.
    induction 1; cbn; [constructor|now apply Permutation_app_head| |etransitivity; eassumption].
    rewrite !app_assoc. apply Permutation_app_tail, Permutation_app_comm.
  Qed.
  Lemma group_part f l d : Permutation d (group eqd f l []) -> part f l (map snd d).
  Proof.
    intros Hd. assert (E : Permutation (map snd d) (map (fun k => filter (keyb eqd f k) l) (dkeys (group eqd f l [])))).
    { etransitivity; [apply Permutation_map, Hd|]. rewrite group_list at 1. rewrite map_map. reflexivity. }
    split.
    - etransitivity; [apply perm_concat, E|]. apply classes_perm; [apply group_NoDup; constructor|].
      intros x Hx. apply group_keys. right. apply in_map, Hx.
    - intros g Hg. eapply Permutation_in in Hg; [|exact E]. apply in_map_iff in Hg as (k & <- & Hk).
      apply group_keys in Hk as [[]|Hk]. apply in_map_iff in Hk as (x & <- & Hx). exists x. split; [exact Hx|reflexivity].
  Qed.
End Part.

Section Variants.
  Context {P : Type}.
  Variable text_hash : pystr -> N.
  Variable ord : list nat -> forall B : Type, list B -> list B.
  Hypothesis Hord : any_orders ord.
  Notation pointer := (nat * list (fevent P))%type.
  Notation deq := (list_eq_dec N.eq_dec).

  Definition key (p : pointer) : list N := map (fun e => text_hash (fe_name e)) (snd p).
  Definition prefix_key (i : nat) (p : pointer) : list N := firstn i (key p).
  Definition at_key (i : nat) (p : pointer) : N := nth i (key p) 0%N.

  Lemma key_length p : length (key p) = length (snd p).
  Proof. apply map_length. Qed.
  Lemma prefix_S i x y : i < length (snd x) -> i < length (snd y) ->
    (prefix_key (S i) x = prefix_key (S i) y <-> prefix_key i x = prefix_key i y /\ at_key i x = at_key i y).
  Proof.
    unfold prefix_key, at_key. rewrite <- !key_length. generalize (key x) (key y). clear.
    induction i as [|i IH]; intros a b Ha Hb; destruct a as [|u a], b as [|v b]; cbn [length] in *; try lia.
    - cbn. split; [intros E; injection E as ->; auto|intros [_ ->]; reflexivity].
    - cbn [nth]. rewrite !firstn_cons. cbn in Ha, Hb. specialize (IH a b ltac:(lia) ltac:(lia)).
      split.
      + intros E. injection E as -> E. apply IH in E as [-> E]. auto.
      + intros [E E']. injection E as -> E. f_equal. apply IH. auto.
  Qed.

  Lemma by_hash_ok g i : (forall p, In p g -> i < length (snd p)) ->
    by_hash text_hash g i = Ok (group N.eq_dec (at_key i) g []).
  Proof.
    unfold by_hash, group. generalize (@nil (N * list pointer)) as d.
    induction g as [|p g IH]; intros d H; [reflexivity|]. rewrite loopM_cons. cbn [fold_left].
    specialize (H p (or_introl eq_refl)) as Hp.
    destruct (nth_error (snd p) i) as [e|] eqn:E; [|apply nth_error_None in E; lia].
    cbn [bind]. rewrite IH by (intros; apply H; right; assumption). do 2 f_equal.
    unfold at_key, key. symmetry. f_equal. erewrite nth_indep by (rewrite map_length; lia).
    rewrite (map_nth (fun e => text_hash (fe_name e)) (snd p) e). rewrite (nth_error_nth _ _ e E). reflexivity.
  Qed.

  Lemma update_groups_ok place i groups : (forall g p, In g groups -> In p g -> i < length (snd p)) ->
    exists G b, update_groups text_hash ord place groups i = Ok (G, b) /\ Permutation (concat G) (concat groups) /\
      (b = true <-> forall g, In g groups -> length g = 1) /\
      forall g', In g' G -> exists g x, In g groups /\ In x g /\ g' = cls N.eq_dec (at_key i) g x.
  Proof.
    induction groups as [|g groups IH]; intros H.
    - exists [], true. split; [reflexivity|]. split; [constructor|]. split; [split; [intros _ ? []|reflexivity]|]. intros ? [].
    - destruct IH as (G & b & E & HG & Hb & Hg); [intros ? ? ? ?; eapply H; [right; eassumption|assumption]|].
      cbn [update_groups]. destruct (Nat.eqb_spec (length g) 1) as [H1|H1]; cbn [bind].
      + rewrite E. cbn [bind fst snd app andb]. exists (g :: G), b. split; [reflexivity|]. split; [cbn; apply Permutation_app_head, HG|].
        split.
        * rewrite Hb. split; [intros Hall ? [<-|?]; auto|intros Hall ? ?; apply Hall; right; assumption].
        * intros g' [<-|Hin].
          -- destruct g as [|x [|]]; try discriminate. exists [x], x. split; [left; reflexivity|]. split; [left; reflexivity|].
             unfold cls. cbn [filter]. assert (T : keyb N.eq_dec (at_key i) (at_key i x) x = true) by (apply keyb_true; reflexivity). now rewrite T.
          -- destruct (Hg g' Hin) as (g0 & x & ? & ? & ->). exists g0, x. split; [right; assumption|auto].
      + rewrite by_hash_ok by (intros; eapply H; [left; reflexivity|assumption]). cbn [bind]. rewrite E. cbn [bind fst snd andb].
        set (d := group N.eq_dec (at_key i) g []). set (pl := length groups :: i :: place).
        assert (HP : part N.eq_dec (at_key i) g (map snd (ord pl _ d))) by (apply group_part, Hord).
        exists (map snd (ord pl _ d) ++ G), false. split; [reflexivity|]. split; [|split].
        * rewrite concat_app. cbn [concat]. apply Permutation_app; [|exact HG]. apply HP.
        * split; [discriminate|]. intros Hall. exfalso. apply H1, Hall. left; reflexivity.
        * intros g' Hin. apply in_app_or in Hin as [Hin|Hin].
          -- destruct (proj2 HP g' Hin) as (x & Hx & ->). exists g, x. split; [left; reflexivity|]. split; [exact Hx|reflexivity].
          -- destruct (Hg g' Hin) as (g0 & x & ? & ? & ->). exists g0, x. split; [right; assumption|auto].
  Qed.

  Lemma split_class i x r : i < length (snd x) -> (forall y, In y r -> i < length (snd y)) ->
    filter (keyb N.eq_dec (at_key i) (at_key i x)) (filter (keyb deq (prefix_key i) (prefix_key i x)) r) =
    filter (keyb deq (prefix_key (S i)) (prefix_key (S i) x)) r.
  Proof.
    intros Lx Hlen. induction r as [|y r IH]; [reflexivity|].
    assert (Ly : i < length (snd y)) by (apply Hlen; left; reflexivity).
    assert (IH' := IH (fun z Hz => Hlen z (or_intror Hz))).
    cbn [filter]. pose proof (prefix_S i y x Ly Lx) as HS.
    destruct (keyb deq (prefix_key (S i)) (prefix_key (S i) x) y) eqn:E1.
    - apply keyb_true in E1. apply HS in E1 as [E1 E2]. apply (keyb_true deq) in E1. apply (keyb_true N.eq_dec) in E2.
      rewrite E1. cbn [filter]. rewrite E2, IH'. reflexivity.
    - destruct (keyb deq (prefix_key i) (prefix_key i x) y) eqn:E2; [|exact IH']. cbn [filter].
      destruct (keyb N.eq_dec (at_key i) (at_key i x) y) eqn:E3; [|exact IH'].
      exfalso. apply keyb_true in E2. apply keyb_true in E3. apply Bool.not_true_iff_false in E1. apply E1, keyb_true, HS. auto.
  Qed.

  Lemma refine_ok place n l : (forall p, In p l -> length (snd p) = n) -> forall k i G, i + k = n -> part deq (prefix_key i) l G ->
    exists G', refine text_hash ord place (seq i k) G = Ok G' /\ part deq (prefix_key n) l G'.
  Proof.
    intros Hl. induction k as [|k IH]; intros i G Hi HP.
    - exists G. split; [reflexivity|]. replace n with i by lia. exact HP.
    - cbn [seq refine].
      assert (Hin : forall g p, In g G -> In p g -> In p l).
      { intros g p Hg Hp. destruct (proj2 HP g Hg) as (x & _ & ->). apply cls_In in Hp. tauto. }
      destruct (update_groups_ok place i G) as (G' & b & E & HG & Hb & Hg).
      { intros g p Hg Hp. rewrite (Hl p (Hin g p Hg Hp)). lia. }
      rewrite E. cbn [bind fst snd]. destruct b.
      + exists G. split; [reflexivity|]. apply (part_singles deq (prefix_key i)); [|exact HP|apply Hb; reflexivity].
        unfold prefix_key. intros x y Exy. apply (f_equal (firstn i)) in Exy. rewrite !firstn_firstn in Exy.
        replace (Nat.min i n) with i in Exy by lia. exact Exy.
      + apply IH; [lia|]. split; [etransitivity; [exact HG|apply HP]|].
        intros g' Hg'. destruct (Hg g' Hg') as (g & x & Hgin & Hx & ->). exists x. split; [eapply Hin; eassumption|].
        rewrite (part_of deq (prefix_key i) l G g x HP Hgin Hx). unfold cls.
        apply split_class; [rewrite (Hl x); [lia|eapply Hin; eassumption]|intros y Hy; rewrite (Hl y Hy); lia].
  Qed.

  Lemma process_group_ok place n l : l <> [] -> (forall p, In p l -> length (snd p) = n) ->
    exists G, process_group text_hash ord place l = Ok G /\ part deq key l G.
  Proof.
    intros Hne Hl. unfold process_group. destruct (Nat.eqb_spec (length l) 1) as [H1|H1].
    - exists [l]. split; [reflexivity|]. apply part_one; [exact Hne|]. destruct l as [|x [|]]; try discriminate.
      intros a b [<-|[]] [<-|[]]. reflexivity.
    - destruct l as [|p l]; [congruence|]. rewrite (Hl p (or_introl eq_refl)).
      destruct (refine_ok place n (p :: l) Hl n 0 [p :: l]) as (G & E & HP); [lia| |].
      { apply part_one; [discriminate|reflexivity]. }
      exists G. split; [exact E|]. destruct HP as [HP1 HP2]. split; [exact HP1|].
      intros g Hg. destruct (HP2 g Hg) as (x & Hx & ->). exists x. split; [exact Hx|]. unfold cls.
      apply filter_ext_in. intros y Hy. unfold keyb, prefix_key.
      rewrite !firstn_all2 by (rewrite key_length, Hl by assumption; lia). reflexivity.
  Qed.

  Lemma loop_groups (ps : list pointer) : forall d acc,
    (forall n l, In (n, l) d -> l <> [] /\ l = filter (keyb Nat.eq_dec (fun p : pointer => length (snd p)) n) ps) ->
    exists G, loopM (fun acc kv => bind (process_group text_hash ord [fst kv] (snd kv)) (fun gs => Ok (acc ++ gs))) d acc = Ok (acc ++ G) /\
      Permutation (concat G) (concat (map snd d)) /\ forall g, In g G -> exists x, In x ps /\ g = cls deq key ps x.
  Proof.
    induction d as [|[n l] d IH]; intros acc H.
    - exists []. rewrite app_nil_r. split; [reflexivity|]. split; [constructor|]. intros ? [].
    - destruct (H n l (or_introl eq_refl)) as [Hne El].
      destruct (process_group_ok [n] n l Hne) as (G1 & E1 & HP).
      { intros p Hp. rewrite El in Hp. apply filter_In in Hp as [_ Hp]. apply keyb_true in Hp. exact Hp. }
      rewrite loopM_cons. cbn [fst snd]. rewrite E1. cbn [bind].
      destruct (IH (acc ++ G1)) as (G2 & E2 & HG & Hg); [intros; apply H; right; assumption|].
      exists (G1 ++ G2). rewrite E2, <- app_assoc. split; [reflexivity|]. rewrite concat_app. cbn [map concat snd].
      split; [apply Permutation_app; [apply HP|exact HG]|].
      intros g Hin. apply in_app_or in Hin as [Hin|Hin]; [|apply Hg, Hin].
      destruct (proj2 HP g Hin) as (x & Hx & ->). rewrite El in Hx. apply filter_In in Hx as [Hx Kx]. apply keyb_true in Kx.
      exists x. split; [exact Hx|]. unfold cls. rewrite El. apply filter_stronger.
      intros y Hy. apply keyb_true in Hy. apply keyb_true. rewrite <- (key_length y), Hy, key_length. exact Kx.
  Qed.

  Notation log := (list (list (fevent P))).
  Lemma insert_perm (g : list pointer) l : Permutation (insert_group g l) (g :: l).
  Proof.
    induction l as [|h l IH]; cbn [insert_group]; [reflexivity|]. destruct (_ <=? _); [reflexivity|].
    rewrite IH. apply perm_swap.
  Qed.
  Lemma sort_perm (l : list (list pointer)) : Permutation (fold_right insert_group [] l) l.
  Proof. induction l as [|g l IH]; cbn [fold_right]; [constructor|]. rewrite insert_perm. now constructor. Qed.
  Lemma insert_sorted (g : list pointer) l : (forall h, In h l -> first_index h <> first_index g) ->
    StronglySorted (fun g h : list pointer => first_index g < first_index h) l ->
    StronglySorted (fun g h : list pointer => first_index g < first_index h) (insert_group g l).
  Proof.
    induction l as [|h l IH]; intros Hn Hs; cbn [insert_group]; [repeat constructor|].
    inversion Hs as [|? ? Hs' Hh]; subst. destruct (Nat.leb_spec (first_index g) (first_index h)) as [Hle|Hgt].
    - assert (first_index g < first_index h) by (specialize (Hn h (or_introl eq_refl)); lia).
      constructor; [exact Hs|]. constructor; [exact H|]. rewrite Forall_forall in *. intros x Hx. specialize (Hh x Hx). lia.
    - constructor; [apply IH; [intros; apply Hn; right; assumption|exact Hs']|].
      rewrite Forall_forall in *. intros x Hx. eapply Permutation_in in Hx; [|apply insert_perm]. destruct Hx as [<-|Hx]; [lia|apply Hh, Hx].
  Qed.
  Lemma sort_sorted (l : list (list pointer)) : NoDup (map first_index l) ->
    StronglySorted (fun g h : list pointer => first_index g < first_index h) (fold_right insert_group [] l).
  Proof.
    induction l as [|g l IH]; intros Hn; cbn [fold_right]; [constructor|]. inversion Hn as [|? ? Hg Hn']; subst.
    apply insert_sorted; [|apply IH, Hn'].
    intros h Hh E. apply Hg. rewrite <- E. apply in_map. eapply Permutation_in; [apply sort_perm|exact Hh].
  Qed.
  Lemma first_index_In (g : list pointer) : g <> [] -> exists p, In p g /\ fst p = first_index g.
  Proof. destruct g as [|p g]; [congruence|]. exists p. split; [left|]; reflexivity. Qed.
  Lemma firsts_NoDup (G : list (list pointer)) : (forall g, In g G -> g <> []) -> NoDup (map fst (concat G)) -> NoDup (map first_index G).
  Proof.
    induction G as [|g G IH]; intros Hne Hn; [constructor|]. cbn [concat map] in *. rewrite map_app in Hn.
    assert (Hd : forall a, In a (map fst g) -> ~ In a (map fst (concat G))).
    { clear - Hn. induction (map fst g) as [|x r IHr]; [intros ? []|]. inversion Hn as [|? ? Hx Hn']; subst.
      intros a [<-|Ha] Hc; [apply Hx, in_or_app; auto|apply (IHr Hn' a Ha Hc)]. }
    assert (Hn2 : NoDup (map fst (concat G))).
    { clear - Hn. induction (map fst g) as [|x r IHr]; [exact Hn|]. inversion Hn; subst. auto. }
    constructor; [|apply IH; [intros; apply Hne; right; assumption|exact Hn2]].
    intros Hin. apply in_map_iff in Hin as (h & E & Hh).
    destruct (first_index_In g (Hne g (or_introl eq_refl))) as (p & Hp & Ep).
    destruct (first_index_In h (Hne h (or_intror Hh))) as (q & Hq & Eq).
    apply (Hd (first_index g)); [rewrite <- Ep; apply in_map, Hp|].
    rewrite <- E, <- Eq. apply in_map, in_concat. exists h. auto.
  Qed.

  Lemma pointers_groups_ok (l : log) : exists G, pointers_groups text_hash ord l = Ok G /\ part deq key (numbered 0 l) G /\
    StronglySorted (fun g h : list pointer => first_index g < first_index h) G.
  Proof.
    unfold pointers_groups. set (ps := numbered 0 l).
    assert (Ed : len_to_traces l = group Nat.eq_dec (fun p : pointer => length (snd p)) ps []) by reflexivity.
    set (d := ord [] _ (len_to_traces l)).
    assert (Hd : Permutation d (group Nat.eq_dec (fun p : pointer => length (snd p)) ps [])) by (rewrite <- Ed; apply Hord).
    destruct (loop_groups ps d []) as (G & E & HG & Hg).
    { intros n g Hin. eapply Permutation_in in Hin; [|exact Hd].
      assert (Hk : In n (dkeys (group Nat.eq_dec (fun p : pointer => length (snd p)) ps []))) by (apply in_map_iff; exists (n, g); auto).
      rewrite group_list in Hin. apply in_map_iff in Hin as (k & E & _). injection E as -> <-. split; [|reflexivity].
      apply group_keys in Hk as [[]|Hk]. apply in_map_iff in Hk as (x & Ex & Hx).
      intros E. assert (In x []) as []. rewrite <- E. apply filter_In. split; [exact Hx|apply keyb_true, Ex]. }
    rewrite E. cbn [bind app].
    assert (HP : part deq key ps G).
    { split; [|exact Hg]. etransitivity; [exact HG|]. apply (group_part Nat.eq_dec (fun p : pointer => length (snd p)) ps d Hd). }
    assert (Hne : forallb (fun g : list pointer => negb (length g =? 0)) G = true).
    { apply forallb_forall. intros g Hin. apply (part_nonempty deq key ps G g HP) in Hin. destruct g; [congruence|reflexivity]. }
    rewrite Hne. exists (fold_right insert_group [] G). split; [reflexivity|]. split.
    - split.
      + etransitivity; [apply perm_concat, sort_perm|apply HP].
      + intros g Hin. apply Hg. eapply Permutation_in; [apply sort_perm|exact Hin].
    - apply sort_sorted, firsts_NoDup; [intros g Hin; exact (part_nonempty deq key ps G g HP Hin)|].
      eapply Permutation_NoDup; [apply Permutation_map, Permutation_sym, (proj1 HP)|].
      unfold ps. rewrite numbered_fst. apply seq_NoDup.
  Qed.
End Variants.

(** Sorted lists are determined by their elements. *)
Lemma sorted_unique {A} (R : A -> A -> Prop) : (forall x y, R x y -> R y x -> False) -> forall l1 l2,
  StronglySorted R l1 -> StronglySorted R l2 -> (forall x, In x l1 <-> In x l2) -> l1 = l2.
Proof.
  intros HR. induction l1 as [|x l1 IH]; intros [|y l2] H1 H2 H.
  - reflexivity.
  - exfalso. apply (H y). left; reflexivity.
  - exfalso. apply (H x). left; reflexivity.
  - inversion H1 as [|? ? H1' F1]; inversion H2 as [|? ? H2' F2]; subst. rewrite Forall_forall in F1, F2.
    assert (x = y) as <-.
    { destruct (proj1 (H x) (or_introl eq_refl)) as [E|Hx]; [congruence|].
      destruct (proj2 (H y) (or_introl eq_refl)) as [E|Hy]; [congruence|]. exfalso. eapply HR; [apply F1, Hy|apply F2, Hx]. }
    f_equal. apply IH; [assumption|assumption|]. intros z. split; intros Hz.
    + destruct (proj1 (H z) (or_intror Hz)) as [<-|?]; [|assumption]. exfalso. eapply HR; apply F1, Hz.
    + destruct (proj2 (H z) (or_intror Hz)) as [<-|?]; [|assumption]. exfalso. eapply HR; apply F2, Hz.
Qed.
Lemma numbered_filter_sorted {A} (p : nat * A -> bool) l : forall lo, StronglySorted lt (map fst (filter p (numbered lo l))).
Proof.
  induction l as [|x l IH]; intros lo; [constructor|]. rewrite numbered_cons. cbn [filter]. destruct (p (lo, x)); [|apply IH].
  cbn [map fst]. constructor; [apply IH|]. apply Forall_forall. intros i Hi. apply in_map_iff in Hi as ([j y] & <- & Hj).
  apply filter_In in Hj as [Hj _]. apply numbered_In in Hj. cbn. lia.
Qed.
Lemma sorted_map {A B} (f : A -> B) (R : A -> A -> Prop) (Q : B -> B -> Prop) l :
  (forall x y, In x l -> In y l -> R x y -> Q (f x) (f y)) -> StronglySorted R l -> StronglySorted Q (map f l).
Proof.
  induction l as [|x l IH]; intros H Hs; [constructor|]. inversion Hs as [|? ? Hs' F]; subst. rewrite Forall_forall in F.
  cbn [map]. constructor; [apply IH; [intros; apply H; try (right; assumption); assumption|exact Hs']|].
  apply Forall_forall. intros y Hy. apply in_map_iff in Hy as (z & <- & Hz). apply H; [left; reflexivity|right; exact Hz|apply F, Hz].
Qed.
Lemma concat_disjoint {A} (G : list (list A)) g h x : NoDup (concat G) -> In g G -> In h G -> In x g -> In x h -> g = h.
Proof.
  induction G as [|a G IH]; intros Hn Hg Hh Xg Xh; [destruct Hg|]. cbn [concat] in Hn.
  assert (Hd : forall a0, In a0 a -> ~ In a0 (concat G)).
  { clear - Hn. induction a as [|y r IHr]; [intros ? []|]. inversion Hn as [|? ? Hx Hn']; subst.
    intros b [<-|Hb] Hc; [apply Hx, in_or_app; auto|apply (IHr Hn' b Hb Hc)]. }
  assert (Hn2 : NoDup (concat G)) by (clear - Hn; induction a as [|y r IHr]; [exact Hn|inversion Hn; subst; auto]).
  destruct Hg as [<-|Hg], Hh as [<-|Hh]; [reflexivity| | |apply IH; assumption];
    exfalso; eapply Hd; try eassumption; apply in_concat; eauto.
Qed.

Lemma grouping_incl {A K} (key : A -> K) l G1 G2 : grouping key l G1 -> grouping key l G2 -> forall g, In g G1 -> In g G2.
Proof.
  intros [P1 S1 I1 O1] [P2 S2 I2 O2] g Hg. destruct (I1 g Hg) as [Hne Hs]. destruct g as [|i g]; [congruence|].
  assert (B : forall G h j, Permutation (concat G) (seq 0 (length l)) -> In h G -> In j h -> exists x, nth_error l j = Some x).
  { intros G h j HP Hh Hj. assert (Hin : In j (seq 0 (length l))) by (eapply Permutation_in; [exact HP|]; apply in_concat; eauto).
    apply in_seq in Hin. destruct (nth_error l j) eqn:E; [eauto|]. apply nth_error_None in E. lia. }
  destruct (B G1 _ i P1 Hg (or_introl eq_refl)) as [x Ex].
  assert (N2 : NoDup (concat G2)) by (eapply Permutation_NoDup; [apply Permutation_sym, P2|apply seq_NoDup]).
  assert (N1 : NoDup (concat G1)) by (eapply Permutation_NoDup; [apply Permutation_sym, P1|apply seq_NoDup]).
  assert (exists h, In h G2 /\ In i h) as (h & Hh & Hih).
  { assert (Hc : In i (concat G2)) by (eapply Permutation_in; [etransitivity; [exact P1|apply Permutation_sym, P2]|]; apply in_concat; exists (i :: g); cbn; auto).
    apply in_concat in Hc as (h & ? & ?). eauto. }
  replace (i :: g) with h; [exact Hh|]. apply (sorted_unique lt); [intros; lia|apply I2, Hh|exact Hs|].
  intros j. split; intros Hj.
  - destruct (B G2 h j P2 Hh Hj) as [y Ey].
    assert (E : key x = key y) by (apply (S2 i j x y Ex Ey); eauto).
    apply (S1 i j x y Ex Ey) in E as (g' & Hg' & Hi' & Hj').
    rewrite (concat_disjoint G1 (i :: g) g' i N1 Hg Hg' (or_introl eq_refl) Hi'). exact Hj'.
  - destruct (B G1 _ j P1 Hg Hj) as [y Ey].
    assert (E : key x = key y) by (apply (S1 i j x y Ex Ey); exists (i :: g); cbn; auto).
    apply (S2 i j x y Ex Ey) in E as (h' & Hh' & Hi' & Hj').
    rewrite (concat_disjoint G2 h h' i N2 Hh Hh' Hih Hi'). exact Hj'.
Qed.
Lemma grouping_unique {A K} (key : A -> K) l G1 G2 : grouping key l G1 -> grouping key l G2 -> G1 = G2.
Proof.
  intros H1 H2. apply (sorted_unique (fun g h => hd 0 g < hd 0 h)); [intros; lia|apply H1|apply H2|].
  intros g. split; [apply (grouping_incl key l G1 G2 H1 H2)|apply (grouping_incl key l G2 G1 H2 H1)].
Qed.

Section Kept.
  Context {P : Type}.
  Variable text_hash : pystr -> N.
  Variable ord : list nat -> forall B : Type, list B -> list B.
  Hypothesis Hord : any_orders ord.
  Notation pointer := (nat * list (fevent P))%type.
  Notation deq := (list_eq_dec N.eq_dec).
  Definition trace_key (t : list (fevent P)) : list N := map (fun e => text_hash (fe_name e)) t.

  Lemma ps_fun (l : list (list (fevent P))) i x y : In (i, x) (numbered 0 l) -> In (i, y) (numbered 0 l) -> x = y.
  Proof. intros H1 H2. apply numbered_In in H1 as [_ H1], H2 as [_ H2]. rewrite H1 in H2. injection H2 as ->. reflexivity. Qed.

  Lemma groups_indices_ok (l : list (list (fevent P))) : exists G, groups_indices text_hash ord l = Ok G /\ grouping trace_key l G.
  Proof.
    unfold groups_indices. destruct (pointers_groups_ok text_hash ord Hord l) as (G & -> & HP & HS). cbn [bind].
    exists (map (map fst) G). split; [reflexivity|]. constructor.
    - rewrite <- concat_map. rewrite <- (numbered_fst l 0). apply Permutation_map, HP.
    - intros i j x y Hx Hy.
      assert (Ix : In (i, x) (numbered 0 l)) by (apply numbered_In; rewrite Nat.sub_0_r; auto with arith).
      assert (Iy : In (j, y) (numbered 0 l)) by (apply numbered_In; rewrite Nat.sub_0_r; auto with arith).
      split.
      + intros (g & Hg & Hi & Hj). apply in_map_iff in Hg as (g0 & <- & Hg0).
        destruct (proj2 HP g0 Hg0) as (z & _ & ->).
        apply in_map_iff in Hi as ([i' x'] & Ei & Hi). cbn in Ei. subst i'. apply in_map_iff in Hj as ([j' y'] & Ej & Hj). cbn in Ej. subst j'.
        apply cls_In in Hi as [Hi Ki]. apply cls_In in Hj as [Hj Kj].
        rewrite (ps_fun l i x x' Ix Hi), (ps_fun l j y y' Iy Hj). unfold key in *. cbn [snd] in *. unfold trace_key. congruence.
      + intros E. exists (map fst (cls deq (key text_hash) (numbered 0 l) (i, x))). split; [apply in_map, part_mem; assumption|].
        split; apply in_map_iff; [exists (i, x)|exists (j, y)]; (split; [reflexivity|]); apply cls_In; split; auto.
    - intros g Hg. apply in_map_iff in Hg as (g0 & <- & Hg0). split.
      + intros E. apply map_eq_nil in E. exact (part_nonempty _ _ _ _ _ HP Hg0 E).
      + destruct (proj2 HP g0 Hg0) as (z & _ & ->). apply numbered_filter_sorted.
    - apply (sorted_map _ (fun g h : list pointer => first_index g < first_index h)); [|exact HS].
      intros g h Hg Hh. apply (part_nonempty _ _ _ _ _ HP) in Hg, Hh. destruct g as [|p g], h as [|q h]; try congruence. cbn. auto.
  Qed.

  Lemma split_ok (l : list (list (fevent P))) : exists G, pointers_groups text_hash ord l = Ok G /\
    groups_indices text_hash ord l = Ok (map (map fst) G) /\ split_by_traces text_hash ord l = Ok (map (map snd) G) /\
    forall g p, In g G -> In p g -> nth_error l (fst p) = Some (snd p).
  Proof.
    unfold groups_indices, split_by_traces. destruct (pointers_groups_ok text_hash ord Hord l) as (G & -> & HP & HS). cbn [bind].
    exists G. repeat split. intros g [i t] Hg Hp. destruct (proj2 HP g Hg) as (z & _ & ->). apply cls_In in Hp as [Hp _].
    apply numbered_In in Hp as [_ Hp]. rewrite Nat.sub_0_r in Hp. exact Hp.
  Qed.

  Lemma firsts_ok (G : list (list pointer)) : (forall g, In g G -> g <> []) ->
    mapM (fun g => SufModel.unwrap (hd_error g)) (map (map fst) G) = Ok (map first_index G).
  Proof.
    induction G as [|g G IH]; intros H; [reflexivity|]. cbn [map mapM].
    assert (Hg := H g (or_introl eq_refl)). destruct g as [|p g]; [congruence|]. cbn [map hd_error SufModel.unwrap bind].
    rewrite IH by (intros; apply H; right; assumption). reflexivity.
  Qed.

  Lemma first_iff (l : list (list (fevent P))) G pre t suf : l = pre ++ t :: suf ->
    part deq (key text_hash) (numbered 0 l) G ->
    (In (length pre) (map first_index G) <-> ~ In (trace_key t) (map trace_key pre)).
  Proof.
    intros El HP.
    assert (En : numbered 0 l = numbered 0 pre ++ (length pre, t) :: numbered (S (length pre)) suf) by (rewrite El, numbered_app; reflexivity).
    assert (It : In (length pre, t) (numbered 0 l)) by (rewrite En; apply in_or_app; right; left; reflexivity).
    assert (HC := part_mem deq _ _ G _ HP It).
    assert (Ec : cls deq (key text_hash) (numbered 0 l) (length pre, t) =
       filter (keyb deq (key text_hash) (trace_key t)) (numbered 0 pre) ++ (length pre, t) :: filter (keyb deq (key text_hash) (trace_key t)) (numbered (S (length pre)) suf)).
    { unfold cls. change (key text_hash (length pre, t)) with (trace_key t). rewrite En. rewrite filter_app. cbn [filter].
      assert (T : keyb deq (key text_hash) (trace_key t) (length pre, t) = true) by (apply keyb_true; reflexivity). rewrite T. reflexivity. }
    split.
    - intros Hin Hc. apply in_map_iff in Hin as (g & Eg & Hg).
      destruct (first_index_In g (part_nonempty _ _ _ _ _ HP Hg)) as ([i u] & Hp & Ei). cbn [fst] in Ei. rewrite Eg in Ei. subst i.
      destruct (proj2 HP g Hg) as (z & _ & Ez). assert (Hu := Hp). rewrite Ez in Hu. apply cls_In in Hu as [Hu _].
      rewrite (ps_fun l _ _ _ It Hu) in *. clear It.
      rewrite (part_of deq _ _ G g _ HP Hg Hp) in Eg.
      rewrite Ec in Eg. apply in_map_iff in Hc as (v & Ev & Hv).
      apply In_nth_error in Hv as [k Hk].
      assert (Iv : In (k, v) (filter (keyb deq (key text_hash) (trace_key u)) (numbered 0 pre))).
      { apply filter_In. split; [apply numbered_In; rewrite Nat.sub_0_r; auto with arith|]. apply keyb_true. exact Ev. }
      destruct (filter (keyb deq (key text_hash) (trace_key u)) (numbered 0 pre)) as [|[j w] r] eqn:E0; [destruct Iv|].
      cbn in Eg. assert (Ij : In (j, w) (numbered 0 pre)).
      { assert (In (j, w) ((j, w) :: r)) as Hj by (left; reflexivity). rewrite <- E0 in Hj. apply filter_In in Hj. tauto. }
      apply numbered_In in Ij as [_ Ij]. assert (j - 0 < length pre) by (apply nth_error_Some; congruence). lia.
    - intros Hn. apply in_map_iff. exists (cls deq (key text_hash) (numbered 0 l) (length pre, t)). split; [|exact HC].
      rewrite Ec. rewrite filter_none; [reflexivity|]. intros [k v] Hv. apply Bool.not_true_iff_false. intros Hk. apply keyb_true in Hk.
      apply Hn. apply numbered_In in Hv as [_ Hv]. apply nth_error_In in Hv. apply in_map_iff. exists v. split; [exact Hk|exact Hv].
  Qed.

  Lemma kept_spec (l : list (list (fevent P))) G : part deq (key text_hash) (numbered 0 l) G -> forall suf pre seen, l = pre ++ suf ->
    (forall k, In k seen <-> In k (map trace_key pre)) ->
    map snd (filter (fun p => negb (negb (existsb (Nat.eqb (fst p)) (map first_index G)))) (numbered (length pre) suf)) =
    first_of_each deq trace_key seen suf.
  Proof.
    intros HP. induction suf as [|t suf IH]; intros pre seen El Hseen; [reflexivity|].
    rewrite numbered_cons. cbn [filter fst first_of_each].
    assert (El' : l = (pre ++ [t]) ++ suf) by (rewrite <- app_assoc; exact El).
    assert (Hlen : length (pre ++ [t]) = S (length pre)) by (rewrite app_length; cbn; lia).
    pose proof (first_iff l G pre t suf El HP) as HF.
    destruct (in_dec deq (trace_key t) seen) as [Hin|Hout].
    - assert (existsb (Nat.eqb (length pre)) (map first_index G) = false) as ->.
      { apply Bool.not_true_iff_false. intros E. apply existsb_exists in E as (j & Hj & Ej). apply Nat.eqb_eq in Ej as <-.
        apply HF in Hj. apply Hj, Hseen, Hin. }
      cbn [negb]. rewrite <- Hlen. apply IH; [exact El'|]. intros k. rewrite Hseen, map_app, in_app_iff. cbn.
      split; [auto|]. intros [H|[<-|[]]]; [exact H|apply Hseen, Hin].
    - assert (existsb (Nat.eqb (length pre)) (map first_index G) = true) as ->.
      { apply existsb_exists. exists (length pre). split; [apply HF; rewrite <- Hseen; exact Hout|apply Nat.eqb_refl]. }
      cbn [negb map snd]. f_equal. rewrite <- Hlen. apply IH; [exact El'|]. intros k. rewrite map_app, in_app_iff. cbn. rewrite Hseen. tauto.
  Qed.

  Lemma variants_part_ok cfg (l : list (list (fevent P))) names :
    variants_part text_hash ord cfg (mkFCtx (Some l) names) = Ok (mkFCtx (Some (first_of_each deq trace_key [] l)) names).
  Proof.
    unfold variants_part, with_log, groups_indices. cbn [fx_log fx_names need bind].
    destruct (pointers_groups_ok text_hash ord Hord l) as (G & -> & HP & HS). cbn [bind].
    rewrite firsts_ok by (intros g Hg; exact (part_nonempty _ _ _ _ _ HP Hg)). cbn [bind].
    rewrite filter_traces_spec. do 3 f_equal. apply (kept_spec l G HP l [] []); reflexivity.
  Qed.
End Kept.

(** What is kept. *)
Lemma first_of_each_In {A K} eqd (key : A -> K) l : forall seen x, In x (first_of_each eqd key seen l) -> In x l /\ ~ In (key x) seen.
Proof.
  induction l as [|y l IH]; intros seen x H; [destruct H|]. cbn [first_of_each] in H. destruct (in_dec eqd (key y) seen) as [Hy|Hy].
  - apply IH in H. cbn. tauto.
  - destruct H as [<-|H]; [cbn; tauto|]. apply IH in H. cbn in *. tauto.
Qed.
Lemma first_of_each_NoDup {A K} eqd (key : A -> K) l : forall seen, NoDup (map key (first_of_each eqd key seen l)).
Proof.
  induction l as [|y l IH]; intros seen; [constructor|]. cbn [first_of_each]. destruct (in_dec eqd (key y) seen) as [Hy|Hy]; [apply IH|].
  cbn [map]. constructor; [|apply IH]. intros H. apply in_map_iff in H as (z & E & Hz). apply first_of_each_In in Hz as [_ Hz]. apply Hz. left. symmetry. exact E.
Qed.
Lemma first_of_each_all {A K} eqd (key : A -> K) l : forall seen x, In x l -> ~ In (key x) seen -> In (key x) (map key (first_of_each eqd key seen l)).
Proof.
  induction l as [|y l IH]; intros seen x H Hn; [destruct H|]. cbn [first_of_each]. destruct (in_dec eqd (key y) seen) as [Hy|Hy].
  - destruct H as [<-|H]; [contradiction|]. apply IH; assumption.
  - cbn [map]. destruct (eqd (key y) (key x)) as [E|E]; [left; exact E|]. right. destruct H as [<-|H]; [congruence|].
    apply IH; [exact H|]. intros [E'|E']; auto.
Qed.
Lemma first_of_each_ext {A K1 K2} e1 e2 (k1 : A -> K1) (k2 : A -> K2) l : forall s1 s2 (pre : list A),
  (forall x y, In x (pre ++ l) -> In y (pre ++ l) -> (k1 x = k1 y <-> k2 x = k2 y)) ->
  (forall k, In k s1 <-> In k (map k1 pre)) -> (forall k, In k s2 <-> In k (map k2 pre)) ->
  first_of_each e1 k1 s1 l = first_of_each e2 k2 s2 l.
Proof.
  induction l as [|x l IH]; intros s1 s2 pre H H1 H2; [reflexivity|]. cbn [first_of_each].
  assert (Hx : In x (pre ++ x :: l)) by (apply in_or_app; right; left; reflexivity).
  assert (E : In (k1 x) s1 <-> In (k2 x) s2).
  { rewrite H1, H2, !in_map_iff. split; intros (y & E & Hy); exists y; (split; [|exact Hy]); apply (H y x) in E || (apply (H y x); [| |exact E]);
      try assumption; try (apply in_or_app; left; exact Hy). }
  assert (H' : forall a b, In a ((pre ++ [x]) ++ l) -> In b ((pre ++ [x]) ++ l) -> (k1 a = k1 b <-> k2 a = k2 b)).
  { intros a b Ha Hb. rewrite <- app_assoc in Ha, Hb. apply H; assumption. }
  assert (M : forall K (f : A -> K) k, In k (map f (pre ++ [x])) <-> In k (map f pre) \/ f x = k).
  { intros K f k. rewrite map_app, in_app_iff. cbn. tauto. }
  destruct (in_dec e1 (k1 x) s1) as [A1|A1], (in_dec e2 (k2 x) s2) as [A2|A2]; try tauto.
  - apply (IH s1 s2 (pre ++ [x]) H'); intros k; rewrite M; [rewrite <- H1|rewrite <- H2]; intuition congruence.
  - f_equal. apply (IH _ _ (pre ++ [x]) H'); intros k; rewrite M; cbn; [rewrite H1|rewrite H2]; intuition congruence.
Qed.
Lemma first_of_each_id {A K} eqd (key : A -> K) l : forall seen, NoDup (map key l) -> (forall x, In x l -> ~ In (key x) seen) ->
  first_of_each eqd key seen l = l.
Proof.
  induction l as [|x l IH]; intros seen Hn Hs; [reflexivity|]. cbn [first_of_each map] in *. inversion Hn; subst.
  destruct (in_dec eqd (key x) seen) as [Hx|Hx]; [exfalso; apply (Hs x); [left; reflexivity|exact Hx]|].
  f_equal. apply IH; [assumption|]. intros y Hy [E|E]; [|apply (Hs y); [right; exact Hy|exact E]].
  apply H1. rewrite E. apply in_map, Hy.
Qed.

(** Too few hashes. *)
Lemma collision_or (f : nat -> N) n : (exists i j, i < j /\ f i = f j) \/ NoDup (map f (seq 0 n)).
Proof.
  induction n as [|n [IH|IH]]; [right; constructor|left; exact IH|].
  rewrite seq_S, map_app. cbn [map Nat.add]. destruct (in_dec N.eq_dec (f n) (map f (seq 0 n))) as [Hin|Hout].
  - left. apply in_map_iff in Hin as (i & E & Hi). apply in_seq in Hi. exists i, n. split; [lia|exact E].
  - right. rewrite <- (rev_involutive (map f (seq 0 n) ++ [f n])). apply NoDup_rev.
    rewrite rev_app_distr. cbn. constructor; [rewrite <- in_rev; exact Hout|apply NoDup_rev, IH].
Qed.
Lemma pigeons (f : nat -> N) (m : nat) : (forall i, (f i < N.of_nat m)%N) -> exists i j, i < j /\ f i = f j.
Proof.
  intros Hf. destruct (collision_or f (S m)) as [H|H]; [exact H|]. exfalso.
  assert (L : length (map f (seq 0 (S m))) <= length (map N.of_nat (seq 0 m))).
  { apply NoDup_incl_length; [exact H|]. intros x Hx. apply in_map_iff in Hx as (i & <- & _). apply in_map_iff.
    exists (N.to_nat (f i)). split; [apply N2Nat.id|]. apply in_seq. specialize (Hf i). lia. }
  rewrite !map_length, !seq_length in L. lia.
Qed.

(** Events left. *)
Lemma without_twice {A} (p q : A -> bool) log : without p (without q log) = without (fun e => q e || p e)%bool log.
Proof.
  unfold without. induction log as [|t log IH]; [reflexivity|]. cbn [map filter].
  assert (E : filter (fun e => negb (p e)) (filter (fun e => negb (q e)) t) = filter (fun e => negb (q e || p e)) t).
  { clear. induction t as [|x t IH]; [reflexivity|]. cbn [filter]. destruct (q x); cbn [negb orb filter]; [exact IH|].
    destruct (p x); cbn [negb]; [exact IH|now rewrite IH]. }
  rewrite <- E. destruct (filter (fun e => negb (q e)) t) as [|x r] eqn:Eq; cbn [filter]; [exact IH|].
  cbn [map filter]. rewrite IH. reflexivity.
Qed.

(** Counts and places. *)
Lemma increase_get d n m : dget str_eq_dec (increase d n) m =
  if str_eq_dec n m then Some (match dget str_eq_dec d n with Some c => S c | None => 1 end) else dget str_eq_dec d m.
Proof. unfold increase. rewrite dget_dset. destruct (str_eq_dec n m); reflexivity. Qed.
Lemma info_counts {P} (events : list (fevent P)) n :
  dget str_eq_dec (fst (sequence_info events)) n =
  (let c := occurrences (map fe_name events) n in if c =? 0 then None else Some c).
Proof.
  unfold sequence_info, occurrences. cbn [fst].
  enough (G : forall d, dget str_eq_dec (fold_left (fun d e => increase d (fe_name e)) events d) n =
     let c := count_occ str_eq_dec (map fe_name events) n in
     match dget str_eq_dec d n with Some k => Some (k + c) | None => if c =? 0 then None else Some c end) by apply (G []).
  induction events as [|e events IH]; intros d; cbn [fold_left map].
  - cbn. destruct (dget str_eq_dec d n); [rewrite Nat.add_0_r|]; reflexivity.
  - rewrite IH, increase_get. cbv zeta. cbn [count_occ]. destruct (str_eq_dec (fe_name e) n) as [<-|Hn].
    + destruct (dget str_eq_dec d (fe_name e)); cbn [Nat.eqb]; f_equal; lia.
    + reflexivity.
Qed.
Lemma positions_spec {P} (events : list (fevent P)) n i :
  (exists l, dget str_eq_dec (events_positions events) n = Some l /\ In i l) <-> is_place_of (map fe_name events) n i.
Proof.
  unfold events_positions, is_place_of.
  enough (G : forall lo d, (exists l, dget str_eq_dec (fst (fold_left (fun di e => (dpush str_eq_dec (fst di) (fe_name e) (snd di), S (snd di))) events (d, lo))) n = Some l /\ In i l)
     <-> (exists l, dget str_eq_dec d n = Some l /\ In i l) \/ (lo <= i /\ nth_error (map fe_name events) (i - lo) = Some n)).
  { rewrite (G 0 []). rewrite Nat.sub_0_r. cbn. split; [intros [(l & E & _)|[_ E]]; [discriminate|exact E]|intros E; right; split; [lia|exact E]]. }
  induction events as [|e events IH]; intros lo d; cbn [fold_left map fst snd].
  - split; [auto|]. intros [H|[_ H]]; [exact H|destruct (i - lo); discriminate].
  - rewrite IH, dget_dpush. destruct (str_eq_dec (fe_name e) n) as [<-|Hn].
    + split.
      * intros [(l & E & Hl)|[Hle E]].
        -- destruct (dget str_eq_dec d (fe_name e)) as [l0|]; injection E as <-.
           ++ apply in_app_or in Hl as [Hl|[<-|[]]]; [left; eauto|]. right. rewrite Nat.sub_diag. auto.
           ++ destruct Hl as [<-|[]]. right. rewrite Nat.sub_diag. auto.
        -- right. split; [lia|]. replace (i - lo) with (S (i - S lo)) by lia. exact E.
      * intros [(l & E & Hl)|[Hle E]].
        -- left. rewrite E. exists (l ++ [lo]). split; [reflexivity|]. apply in_or_app; auto.
        -- destruct (Nat.eq_dec i lo) as [->|Hne].
           ++ left. destruct (dget str_eq_dec d (fe_name e)) as [l0|]; [exists (l0 ++ [lo])|exists [lo]]; (split; [reflexivity|]); [apply in_or_app; cbn; auto|cbn; auto].
           ++ right. split; [lia|]. replace (i - lo) with (S (i - S lo)) in E by lia. exact E.
    + split.
      * intros [H|[Hle E]]; [left; exact H|]. right. split; [lia|]. replace (i - lo) with (S (i - S lo)) by lia. exact E.
      * intros [H|[Hle E]]; [left; exact H|]. right. destruct (Nat.eq_dec i lo) as [->|Hne].
        -- rewrite Nat.sub_diag in E. cbn in E. congruence.
        -- split; [lia|]. replace (i - lo) with (S (i - S lo)) in E by lia. exact E.
Qed.
