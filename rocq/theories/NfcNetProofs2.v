(** Proofs about the search for places of the alpha++ NFC algorithm. *)
From Coq Require Import Permutation Sorted.
From Verif Require Import Py PyFacts InfoModel InfoSpec InfoProofs HashModel EqProofs ReplayModel RInfoModel RInfoSpec RInfoProofs AlphaModel AlphaSpec AlphaProofs PlusSpec NfcModel NfcSpec NfcNetModel NfcNetSpec NfcNetProofs.

(** * Ascending lists *)
Inductive sub {A} : list A -> list A -> Prop :=
| sub_none l : sub [] l
| sub_same x l l' : sub l l' -> sub (x :: l) (x :: l')
| sub_more x l l' : sub l l' -> sub l (x :: l').
Lemma sorted_sub l' : forall l, bsorted l -> bsorted l' -> incl l l' -> sub l l'.
Proof.
  induction l' as [|y r IH]; intros l S S' I.
  - destruct l as [|x l]; [constructor|]. exfalso. exact (I x (or_introl eq_refl)).
  - destruct l as [|x t]; [constructor|]. inversion S as [|x0 t0 St Ft]; subst. inversion S' as [|y0 r0 Sr Fr]; subst. rewrite Forall_forall in Ft, Fr.
    destruct (str_eq_dec x y) as [->|N].
    + apply sub_same, IH; auto. intros z Hz. destruct (I z (or_intror Hz)) as [E|H]; [|exact H]. subst z. exfalso. exact (proj2 (Ft y Hz) eq_refl).
    + apply sub_more, IH; auto. assert (Hx : In x r) by (destruct (I x (or_introl eq_refl)) as [E|H]; [congruence|exact H]).
      intros z Hz. destruct (I z Hz) as [E|H]; [|exact H]. subst z. destruct Hz as [E|Hz]; [congruence|]. exfalso.
      assert (X := Ft y Hz). assert (Y := Fr x Hx). apply N, str_leb_antisym; [apply X|apply Y].
Qed.
Lemma sub_text {A B} (g : A -> list B) l l' : sub l l' -> length (flat_map g l) <= length (flat_map g l') /\ (length (flat_map g l') = length (flat_map g l) -> flat_map g l' = flat_map g l).
Proof.
  induction 1 as [l|x l l' H IH|x l l' H IH]; cbn [flat_map].
  - split; [cbn; lia|]. intros E. cbn in E. destruct (flat_map g l); [reflexivity|cbn in E; lia].
  - rewrite !app_length. split; [lia|]. intros E. rewrite (proj2 IH) by lia. reflexivity.
  - rewrite !app_length. split; [lia|]. intros E. assert (X : length (g x) = 0) by lia. destruct (g x); [|cbn in X; lia]. cbn [app]. apply IH. cbn in E. lia.
Qed.
Lemma sorted_text {B} (g : pystr -> list B) l l' : bsorted l -> bsorted l' -> incl l l' ->
  length (flat_map g l) <= length (flat_map g l') /\ (length (flat_map g l') = length (flat_map g l) -> flat_map g l' = flat_map g l).
Proof. intros S S' I. apply sub_text, sorted_sub; assumption. Qed.
Lemma bset_of_nil l : bset_of l <> [] <-> l <> [].
Proof.
  split; intros N E.
  - subst l. apply N. reflexivity.
  - destruct l as [|x l]; [apply N; reflexivity|]. assert (H : In x (bset_of (x :: l))) by (apply bset_of_In; left; reflexivity). rewrite E in H. exact H.
Qed.
Lemma bsorted_one a : bsorted [a].
Proof. repeat constructor. Qed.
Definition bytes (s : pystr) : list N := s.
Lemma concat_flat (l : list pystr) : concat l = flat_map bytes l.
Proof. induction l as [|x l IH]; [reflexivity|]. cbn [concat flat_map]. rewrite IH. reflexivity. Qed.

(** * Vectors without elements which are equal *)
Section Dedup.
  Context {T K : Type}.
  Variable key : T -> K.
  Variable eqb : T -> T -> bool.
  Hypothesis eqb_key : forall x y, eqb x y = true <-> key x = key y.
  Lemma dedup_proof l : forall s, NoDup (map key s) -> let r := fold_left (hadd eqb) l s in NoDup (map key r) /\
    (forall x, In x r -> In x l \/ In x s) /\ (forall x, In x l \/ In x s -> exists y, In y r /\ key y = key x).
  Proof.
    induction l as [|x l IH]; intros s N; cbn [fold_left].
    - split; [exact N|]. split; [auto|]. intros y [[]|H]. exists y. auto.
    - assert (H : NoDup (map key (hadd eqb s x)) /\ (forall y, In y (hadd eqb s x) -> y = x \/ In y s) /\ forall y, y = x \/ In y s -> exists z, In z (hadd eqb s x) /\ key z = key y).
      { unfold hadd. destruct (existsb (eqb x) s) eqn:E.
        - apply existsb_exists in E. destruct E as (z & Hz & E). apply eqb_key in E. split; [exact N|]. split; [auto|]. intros y [->|Hy]; [exists z; auto|exists y; auto].
        - split; [|split].
          + rewrite map_app. cbn [map]. apply (Permutation_NoDup (Permutation_cons_append _ _)). constructor; [|exact N]. intros H. apply in_map_iff in H. destruct H as (z & Ez & Hz).
            assert (X : existsb (eqb x) s = true) by (apply existsb_exists; exists z; split; [exact Hz|apply eqb_key; congruence]). congruence.
          + intros y Hy. apply in_app_iff in Hy. destruct Hy as [Hy|[<-|[]]]; auto.
          + intros y [->|Hy]; [exists x|exists y]; (split; [apply in_app_iff; cbn; auto|reflexivity]). }
      destruct H as (H1 & H2 & H3). destruct (IH _ H1) as (A & B & C). split; [exact A|]. split.
      + intros y Hy. destruct (B y Hy) as [X|X]; [left; right; exact X|]. destruct (H2 y X) as [->|Y]; [left; left; reflexivity|right; exact Y].
      + intros y Hy. assert (X : In y l \/ y = x \/ In y s) by (cbn [In] in Hy; intuition congruence). destruct X as [X|X]; [apply C; left; exact X|].
        destruct (H3 y X) as (z & Hz & Ez). destruct (C z (or_intror Hz)) as (u & Hu & Eu). exists u. split; [exact Hu|congruence].
  Qed.
End Dedup.

(** * Triples *)
Lemma triple_eqb_key x y : triple_eqb x y = true <-> triple_key x = triple_key y.
Proof. unfold triple_eqb. destruct (list_eq_dec N.eq_dec _ _); split; congruence. Qed.
Definition atoms3 (t : triple) : list (nat * pystr) := map (pair 0) (t_a t) ++ map (pair 1) (t_b t) ++ map (pair 2) (t_c t).
Lemma in_tag (k k' : nat) (x : pystr) l : In (k, x) (map (pair k') l) <-> k = k' /\ In x l.
Proof. rewrite in_map_iff. split; [intros (y & E & H); injection E as -> ->; auto|]. intros (-> & H). exists x. auto. Qed.
Lemma atoms3_In t k x : In (k, x) (atoms3 t) <-> (k = 0 /\ In x (t_a t)) \/ (k = 1 /\ In x (t_b t)) \/ (k = 2 /\ In x (t_c t)).
Proof. unfold atoms3. rewrite !in_app_iff, !in_tag. tauto. Qed.
Lemma atoms3_incl t w : incl (atoms3 t) (atoms3 w) <-> incl (t_a t) (t_a w) /\ incl (t_b t) (t_b w) /\ incl (t_c t) (t_c w).
Proof.
  split.
  - intros I. split; [|split]; intros x Hx; [assert (X : In (0, x) (atoms3 w))|assert (X : In (1, x) (atoms3 w))|assert (X : In (2, x) (atoms3 w))];
      try (apply I, atoms3_In; intuition); apply atoms3_In in X; intuition congruence.
  - intros (A & B & C) [k x] H. apply atoms3_In in H. apply atoms3_In. firstorder.
Qed.
Definition neat3 (t : triple) : Prop := bsorted (t_a t) /\ bsorted (t_b t) /\ bsorted (t_c t).
Lemma tag_dec : forall a b : nat * pystr, {a = b} + {a <> b}.
Proof. decide equality; [apply str_eq_dec|apply Nat.eq_dec]. Qed.

Section Triples.
  Variable ord : nat -> forall A : Type, list A -> list A.
  Hypothesis O : any_order ord.
  Variable p : nprov.
  Variable loops : list pystr.
  Variable R : pystr -> pystr -> pystr -> Prop.
  Definition one_valid (a b c : pystr) : bool := (nfc_direct p a c && negb (nfc_triangle p c a)) && (nfc_direct p c b && negb (nfc_triangle p c b)) && negb (nfc_parallel p a b) && (nfc_unrelated p a a && nfc_unrelated p b b).
  Hypothesis R_valid : forall a b c, In c loops -> (one_valid a b c = true <-> R a b c).
  Hypothesis R_loops : forall a b c, R a b c -> In c loops.
  Hypothesis R_seen : forall a b c k, R a b c -> In a (r_all_event_classes ord k (np_info p)) /\ In b (r_all_event_classes ord k (np_info p)).
  Definition good3 (t : triple) : Prop := neat3 t /\ fits3 R (t_a t) (t_b t) (t_c t).
  Lemma valid_proof t : incl (t_c t) loops -> (triple_valid p t = true <-> forall a b c, In a (t_a t) -> In b (t_b t) -> In c (t_c t) -> R a b c).
  Proof.
    intros I. unfold triple_valid. rewrite forallb_forall. split.
    - intros H a b c Ha Hb Hc. apply R_valid; [apply I, Hc|]. specialize (H a Ha). rewrite forallb_forall in H. specialize (H b Hb). rewrite forallb_forall in H. exact (H c Hc).
    - intros H a Ha. apply forallb_forall. intros b Hb. apply forallb_forall. intros c Hc. apply (proj2 (R_valid a b c (I c Hc))). auto.
  Qed.
  Lemma good3_loops t : good3 t -> incl (t_c t) loops.
  Proof.
    intros (_ & A & B & _ & H) c Hc. destruct (t_a t) as [|a A']; [congruence|]. destruct (t_b t) as [|b B']; [congruence|]. apply (R_loops a b c), H; cbn; auto.
  Qed.
  Lemma triple_unites x y : good3 x -> good3 y -> match triple_merge p x y with
    | Some z => good3 z /\ forall a, In a (atoms3 z) <-> In a (atoms3 x) \/ In a (atoms3 y)
    | None => forall w, good3 w -> incl (atoms3 x) (atoms3 w) -> ~ incl (atoms3 y) (atoms3 w)
    end.
  Proof.
    intros X Y. unfold triple_merge. set (z := mkTriple _ _ _).
    assert (Az : forall a, In a (atoms3 z) <-> In a (atoms3 x) \/ In a (atoms3 y)) by (intros [k a]; rewrite !atoms3_In; unfold z; cbn [t_a t_b t_c]; rewrite !bset_of_In, !in_app_iff; tauto).
    assert (Lz : incl (t_c z) loops) by (intros c Hc; unfold z in Hc; cbn [t_c] in Hc; apply bset_of_In, in_app_iff in Hc; destruct Hc as [Hc|Hc]; [exact (good3_loops x X c Hc)|exact (good3_loops y Y c Hc)]).
    destruct (triple_valid p z) eqn:E.
    - split; [|exact Az]. split; [repeat split; apply bset_of_sorted|]. destruct X as (_ & X1 & X2 & X3 & _). unfold z. cbn [t_a t_b t_c].
      split; [apply bset_of_nil; destruct (t_a x); [congruence|discriminate]|]. split; [apply bset_of_nil; destruct (t_b x); [congruence|discriminate]|]. split; [apply bset_of_nil; destruct (t_c x); [congruence|discriminate]|].
      apply (proj1 (valid_proof z Lz) E).
    - intros w (_ & _ & _ & _ & W) Ix Iy. assert (Iz : incl (atoms3 z) (atoms3 w)) by (intros a Ha; apply Az in Ha; destruct Ha as [Ha|Ha]; auto). apply atoms3_incl in Iz. destruct Iz as (I1 & I2 & I3).
      assert (V : triple_valid p z = true) by (apply (proj2 (valid_proof z Lz)); intros a b c Ha Hb Hc; apply W; auto). congruence.
  Qed.
  Lemma key3_flat t : triple_key t = flat_map bytes (t_a t) ++ flat_map bytes (t_b t) ++ flat_map bytes (t_c t).
  Proof. unfold triple_key. rewrite <- !concat_flat. reflexivity. Qed.
  Lemma key3_size x z : good3 x -> good3 z -> incl (atoms3 x) (atoms3 z) -> length (triple_key x) <= length (triple_key z) /\ (length (triple_key z) = length (triple_key x) -> triple_key z = triple_key x).
  Proof.
    intros ((X1 & X2 & X3) & _) ((Z1 & Z2 & Z3) & _) I. apply atoms3_incl in I. destruct I as (I1 & I2 & I3). rewrite !key3_flat, !app_length.
    destruct (sorted_text bytes _ _ X1 Z1 I1) as (A1 & A2). destruct (sorted_text bytes _ _ X2 Z2 I2) as (B1 & B2). destruct (sorted_text bytes _ _ X3 Z3 I3) as (C1 & C2).
    split; [lia|]. intros E. rewrite A2, B2, C2 by lia. reflexivity.
  Qed.
  Definition all3 : triple := mkTriple (bset_of (r_all_event_classes ord 0 (np_info p))) (bset_of (r_all_event_classes ord 0 (np_info p))) (bset_of loops).
  Lemma key3_bounded x : good3 x -> length (triple_key x) <= length (triple_key all3).
  Proof.
    intros G. assert (L := good3_loops x G). destruct G as ((X1 & X2 & X3) & F1 & F2 & F3 & F). rewrite !key3_flat, !app_length. unfold all3. cbn [t_a t_b t_c].
    destruct (t_a x) as [|a0 A0] eqn:Ea; [congruence|]. destruct (t_b x) as [|b0 B0] eqn:Eb; [congruence|]. destruct (t_c x) as [|c0 C0] eqn:Ec; [congruence|]. rewrite <- Ea, <- Eb, <- Ec in *.
    assert (Ha : In a0 (t_a x)) by (rewrite Ea; left; reflexivity). assert (Hb : In b0 (t_b x)) by (rewrite Eb; left; reflexivity). assert (Hc : In c0 (t_c x)) by (rewrite Ec; left; reflexivity).
    assert (I1 : incl (t_a x) (bset_of (r_all_event_classes ord 0 (np_info p)))) by (intros a H; apply bset_of_In; apply (R_seen a b0 c0 0); auto).
    assert (I2 : incl (t_b x) (bset_of (r_all_event_classes ord 0 (np_info p)))) by (intros b H; apply bset_of_In; apply (R_seen a0 b c0 0); auto).
    assert (I3 : incl (t_c x) (bset_of loops)) by (intros c H; apply bset_of_In, L, H).
    assert (A := proj1 (sorted_text bytes _ _ X1 (bset_of_sorted _) I1)). assert (B := proj1 (sorted_text bytes _ _ X2 (bset_of_sorted _) I2)). assert (C := proj1 (sorted_text bytes _ _ X3 (bset_of_sorted _) I3)). lia.
  Qed.
  Lemma some_atom3 x : good3 x -> atoms3 x <> [].
  Proof. intros (_ & A & _). unfold atoms3. destruct (t_a x); [congruence|discriminate]. Qed.
  Lemma first3_In t : In t (flat_map (fun ab => flat_map (fun c => match triple_new p (fst ab) (snd ab) c with Some t => [t] | None => [] end) (ord 79 _ loops))
        (list_prod (r_all_event_classes ord 77 (np_info p)) (r_all_event_classes ord 78 (np_info p)))) <-> exists a b c, R a b c /\ t = mkTriple [a] [b] [c].
  Proof.
    rewrite in_flat_map. split.
    - intros ((a & b) & _ & H). apply in_flat_map in H. destruct H as (c & Hc & H). apply (Permutation_in _ (O 79 _ loops)) in Hc. cbn [fst snd] in H. unfold triple_new in H.
      destruct (triple_valid p (mkTriple [a] [b] [c])) eqn:E; [|destruct H]. destruct H as [<-|[]]. exists a, b, c. split; [|reflexivity].
      apply (proj1 (valid_proof (mkTriple [a] [b] [c]) ltac:(intros d [<-|[]]; exact Hc)) E); cbn; auto.
    - intros (a & b & c & H & ->). destruct (R_seen a b c 77 H) as (Sa & _). destruct (R_seen a b c 78 H) as (_ & Sb). exists (a, b). split; [apply in_prod; assumption|].
      apply in_flat_map. exists c. split; [apply (Permutation_in _ (Permutation_sym (O 79 _ loops))), (R_loops a b c H)|]. cbn [fst snd]. unfold triple_new.
      rewrite (proj2 (valid_proof (mkTriple [a] [b] [c]) ltac:(intros d [<-|[]]; exact (R_loops a b c H)))); [left; reflexivity|]. cbn. intros a' b' c' [<-|[]] [<-|[]] [<-|[]]. exact H.
  Qed.
  Lemma first3_good : Forall good3 (first_triples ord p loops) /\ NoDup (map triple_key (first_triples ord p loops)) /\
    forall a b c, R a b c -> exists t, In t (first_triples ord p loops) /\ triple_key t = triple_key (mkTriple [a] [b] [c]).
  Proof.
    unfold first_triples. match goal with |- context [fold_left _ ?l _] => destruct (dedup_proof triple_key triple_eqb triple_eqb_key l [] (NoDup_nil _)) as (A & B & C) end.
    split; [|split; [exact A|]].
    - apply Forall_forall. intros t Ht. destruct (B t Ht) as [H|[]]. apply first3_In in H. destruct H as (a & b & c & H & ->). split; [repeat split; apply bsorted_one|]. split; [discriminate|]. split; [discriminate|]. split; [discriminate|].
      cbn. intros a' b' c' [<-|[]] [<-|[]] [<-|[]]. exact H.
    - intros a b c H. apply C. left. apply first3_In. eauto.
  Qed.
  Lemma find_triples_any : exists fuel0 r, (forall fuel, fuel0 <= fuel -> find_triples ord fuel p loops = Ok r) /\ Forall good3 r /\ NoDup (map triple_key r) /\
    (forall x y w, In x r -> In y r -> triple_key x <> triple_key y -> good3 w -> incl (atoms3 x) (atoms3 w) -> ~ incl (atoms3 y) (atoms3 w)).
  Proof.
    destruct first3_good as (F & N & _).
    exact (unite_ends triple_key triple_eqb (triple_merge p) ord good3 atoms3 _ triple_eqb_key O triple_unites key3_size key3_bounded (first_triples ord p loops) 1000 F N).
  Qed.
  Lemma find_triples_largest : clear_texts R -> exists fuel0 r, (forall fuel, fuel0 <= fuel -> find_triples ord fuel p loops = Ok r) /\ NoDup r /\
    forall x, In x r <-> neat3 x /\ maximal3 R (t_a x) (t_b x) (t_c x).
  Proof.
    intros Cl. destruct first3_good as (F & N & C).
    assert (Inj : forall x y, good3 x -> good3 y -> triple_key x = triple_key y -> x = y).
    { intros x y ((X1 & X2 & X3) & X) ((Y1 & Y2 & Y3) & Y) E. destruct (Cl _ _ _ _ _ _ X1 X2 X3 Y1 Y2 Y3 X Y E) as (A & B & D). destruct x, y. cbn in *. congruence. }
    destruct (unite_largest triple_key triple_eqb (triple_merge p) ord good3 atoms3 (length (triple_key all3)) tag_dec triple_eqb_key O triple_unites key3_size key3_bounded some_atom3 Inj (first_triples ord p loops) 1000 F N) as (f & r & E & Nr & H).
    - intros w W [k x] Hx. destruct W as ((W1 & W2 & W3) & F1 & F2 & F3 & FR).
      assert (Q : forall a b c, In a (t_a w) -> In b (t_b w) -> In c (t_c w) -> exists t, In t (first_triples ord p loops) /\ t = mkTriple [a] [b] [c]).
      { intros a b c Ha Hb Hc. destruct (C a b c (FR a b c Ha Hb Hc)) as (t & Ht & Et). exists t. split; [exact Ht|]. apply Inj; [apply (proj1 (Forall_forall _ _) F), Ht| |exact Et].
        split; [repeat split; apply bsorted_one|]. do 3 (split; [discriminate|]). cbn. intros a' b' c' [<-|[]] [<-|[]] [<-|[]]. auto. }
      destruct (t_a w) as [|a0 A0] eqn:Ea; [congruence|]. destruct (t_b w) as [|b0 B0] eqn:Eb; [congruence|]. destruct (t_c w) as [|c0 C0] eqn:Ec; [congruence|]. rewrite <- Ea, <- Eb, <- Ec in *.
      assert (Ha : In a0 (t_a w)) by (rewrite Ea; left; reflexivity). assert (Hb : In b0 (t_b w)) by (rewrite Eb; left; reflexivity). assert (Hc : In c0 (t_c w)) by (rewrite Ec; left; reflexivity).
      apply atoms3_In in Hx. destruct Hx as [(-> & Hx)|[(-> & Hx)|(-> & Hx)]]; [destruct (Q x b0 c0) as (t & Ht & ->)|destruct (Q a0 x c0) as (t & Ht & ->)|destruct (Q a0 b0 x) as (t & Ht & ->)]; auto;
        (eexists; split; [exact Ht|]; split; [apply atoms3_incl; cbn; repeat split; intros z [<-|[]]; assumption|apply atoms3_In; cbn; tauto]).
    - intros x y ((X1 & X2 & X3) & _) ((Y1 & Y2 & Y3) & _) I J. apply atoms3_incl in I. apply atoms3_incl in J. destruct I as (I1 & I2 & I3), J as (J1 & J2 & J3). destruct x, y. cbn in *.
      f_equal; apply bsorted_ext; auto; intros z; split; auto.
    - exists f, r. split; [exact E|]. split; [exact Nr|]. intros x. rewrite H. split.
      + intros ((X & Fx) & M). split; [exact X|]. split; [exact Fx|]. intros A' B' C' F' I1 I2 I3.
        assert (Ew := M (mkTriple (bset_of A') (bset_of B') (bset_of C'))). rewrite <- Ew; cbn [t_a t_b t_c].
        * repeat split; intros z Hz; apply bset_of_In, Hz.
        * split; [repeat split; apply bset_of_sorted|]. cbn [t_a t_b t_c]. destruct F' as (G1 & G2 & G3 & G). do 3 (split; [apply bset_of_nil; assumption|]). intros a b c Ha Hb Hc. rewrite bset_of_In in Ha, Hb, Hc. auto.
        * apply atoms3_incl. cbn [t_a t_b t_c]. repeat split; intros z Hz; apply bset_of_In; auto.
      + intros (X & Fx & M). split; [split; assumption|]. intros w ((W1 & W2 & W3) & Fw) I. apply atoms3_incl in I. destruct I as (I1 & I2 & I3). destruct (M _ _ _ Fw I1 I2 I3) as (J1 & J2 & J3).
        destruct X as (X1 & X2 & X3). destruct x, w. cbn in *. f_equal; apply bsorted_ext; auto; intros z; split; auto.
  Qed.
End Triples.
