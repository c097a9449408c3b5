(** Proofs about pairs of w3 and sets with extensions of the alpha++ NFC algorithm. *)
From Coq Require Import Permutation Sorted.
From Verif Require Import Py PyFacts InfoModel InfoSpec InfoProofs HashModel EqProofs ReplayModel RInfoModel RInfoSpec RInfoProofs AlphaModel AlphaSpec AlphaProofs PlusSpec NfcModel NfcSpec NfcNetModel NfcNetSpec NfcNetProofs NfcNetProofs2.

(** * Pairs of w3 *)
Definition as_key (x : aset) : list pystr := as_left x ++ as_right x.
Lemma as_eqb_key x y : as_eqb x y = true <-> as_key x = as_key y.
Proof. unfold as_eqb, as_key. destruct (list_eq_dec str_eq_dec _ _); split; congruence. Qed.
Definition atoms2 (x : aset) : list (nat * pystr) := map (pair 0) (as_left x) ++ map (pair 1) (as_right x).
Lemma atoms2_In t k x : In (k, x) (atoms2 t) <-> (k = 0 /\ In x (as_left t)) \/ (k = 1 /\ In x (as_right t)).
Proof. unfold atoms2. rewrite !in_app_iff, !in_tag. tauto. Qed.
Lemma atoms2_incl t w : incl (atoms2 t) (atoms2 w) <-> incl (as_left t) (as_left w) /\ incl (as_right t) (as_right w).
Proof.
  split.
  - intros I. split; intros x Hx; [assert (X : In (0, x) (atoms2 w))|assert (X : In (1, x) (atoms2 w))]; try (apply I, atoms2_In; intuition); apply atoms2_In in X; intuition congruence.
  - intros (A & B) [k x] H. apply atoms2_In in H. apply atoms2_In. firstorder.
Qed.
Lemma flat_one {A} (l : list A) : flat_map (fun x => [x]) l = l.
Proof. induction l; cbn; congruence. Qed.
Lemma sorted_length l l' : bsorted l -> bsorted l' -> incl l l' -> length l <= length l' /\ (length l' = length l -> l' = l).
Proof. intros A B C. assert (H := sorted_text (fun x => [x]) l l' A B C). rewrite !flat_one in H. exact H. Qed.
Lemma incl_one {A} (a : A) l : In a l -> incl [a] l.
Proof. intros H z [<-|[]]. exact H. Qed.
Lemma tidy_both x : tidy x <-> bsorted (as_left x) /\ bsorted (as_right x).
Proof. split; [intros H; exact (conj (H true) (H false))|]. intros (A & B) [|]; assumption. Qed.

Section Pairs.
  Variable ord : nat -> forall A : Type, list A -> list A.
  Hypothesis O : any_order ord.
  Variable p : nprov.
  Variable w3 : list (pystr * pystr).
  Variable U : pystr -> pystr -> Prop.
  Hypothesis U_proof : forall a b, nfc_unrelated p a b = true <-> U a b.
  Hypothesis w3_seen : forall a b k, In (a, b) w3 -> In a (r_all_event_classes ord k (np_info p)) /\ In b (r_all_event_classes ord k (np_info p)).
  Notation W := (fun a b => In (a, b) w3).
  Definition good2 (x : aset) : Prop := tidy x /\ fits W U (as_left x) (as_right x).
  Lemma w3_valid_proof x : w3_valid p w3 x = true <-> (forall a b, In a (as_left x) -> In b (as_right x) -> In (a, b) w3) /\
    (forall a a', In a (as_left x) -> In a' (as_left x) -> U a a') /\ (forall b b', In b (as_right x) -> In b' (as_right x) -> U b b').
  Proof.
    unfold w3_valid. rewrite !andb_true_iff, !forallb_forall. split.
    - intros ((A & B) & C). split; [|split].
      + intros a b Ha Hb. specialize (A a Ha). rewrite forallb_forall in A. specialize (A b Hb). destruct (in_dec pair_eq_dec (a, b) w3); [assumption|discriminate].
      + intros a a' Ha Ha'. specialize (B a Ha). rewrite forallb_forall in B. apply U_proof, B, Ha'.
      + intros b b' Hb Hb'. specialize (C b Hb). rewrite forallb_forall in C. apply U_proof, C, Hb'.
    - intros (A & B & C). split; [split|].
      + intros a Ha. apply forallb_forall. intros b Hb. destruct (in_dec pair_eq_dec (a, b) w3) as [H|H]; [reflexivity|]. exfalso. apply H, A; assumption.
      + intros a Ha. apply forallb_forall. intros a' Ha'. apply U_proof. auto.
      + intros b Hb. apply forallb_forall. intros b' Hb'. apply U_proof. auto.
  Qed.
  Lemma pair_unites x y : good2 x -> good2 y -> match w3_merger p w3 x y with
    | Some z => good2 z /\ forall a, In a (atoms2 z) <-> In a (atoms2 x) \/ In a (atoms2 y)
    | None => forall w, good2 w -> incl (atoms2 x) (atoms2 w) -> ~ incl (atoms2 y) (atoms2 w)
    end.
  Proof.
    intros X Y. unfold w3_merger. set (z := extend x y). cbv zeta.
    assert (Az : forall a, In a (atoms2 z) <-> In a (atoms2 x) \/ In a (atoms2 y)) by (intros [k a]; rewrite !atoms2_In; unfold z, extend; cbn [as_left as_right]; rewrite !bset_of_In, !in_app_iff; tauto).
    destruct (w3_valid p w3 z) eqn:E.
    - split; [|exact Az]. split; [apply tidy_both; split; apply bset_of_sorted|]. destruct X as (_ & X1 & X2 & _). apply w3_valid_proof in E.
      split; [apply bset_of_nil; destruct (as_left x); [congruence|discriminate]|]. split; [apply bset_of_nil; destruct (as_right x); [congruence|discriminate]|]. exact E.
    - intros w (_ & _ & _ & W1 & W2 & W3) Ix Iy. assert (Iz : incl (atoms2 z) (atoms2 w)) by (intros a Ha; apply Az in Ha; destruct Ha as [Ha|Ha]; auto). apply atoms2_incl in Iz. destruct Iz as (I1 & I2).
      assert (V : w3_valid p w3 z = true) by (apply w3_valid_proof; split; [|split]; auto). congruence.
  Qed.
  Lemma key2_size x z : good2 x -> good2 z -> incl (atoms2 x) (atoms2 z) -> length (as_key x) <= length (as_key z) /\ (length (as_key z) = length (as_key x) -> as_key z = as_key x).
  Proof.
    intros (X & _) (Z & _) I. apply tidy_both in X. apply tidy_both in Z. apply atoms2_incl in I. unfold as_key. rewrite !app_length.
    destruct (sorted_length _ _ (proj1 X) (proj1 Z) (proj1 I)) as (A1 & A2). destruct (sorted_length _ _ (proj2 X) (proj2 Z) (proj2 I)) as (B1 & B2).
    split; [lia|]. intros E. rewrite A2, B2 by lia. reflexivity.
  Qed.
  Definition all2 : list pystr := bset_of (r_all_event_classes ord 0 (np_info p)).
  Lemma key2_bounded x : good2 x -> length (as_key x) <= length all2 + length all2.
  Proof.
    intros (X & F1 & F2 & F & _). apply tidy_both in X. unfold as_key. rewrite app_length.
    destruct (as_left x) as [|a0 A0] eqn:Ea; [congruence|]. destruct (as_right x) as [|b0 B0] eqn:Eb; [congruence|]. rewrite <- Ea, <- Eb in *.
    assert (Ha : In a0 (as_left x)) by (rewrite Ea; left; reflexivity). assert (Hb : In b0 (as_right x)) by (rewrite Eb; left; reflexivity).
    assert (I1 : incl (as_left x) all2) by (intros a H; apply bset_of_In; apply (w3_seen a b0 0); auto).
    assert (I2 : incl (as_right x) all2) by (intros b H; apply bset_of_In; apply (w3_seen a0 b 0); auto).
    assert (A := proj1 (sorted_length _ _ (proj1 X) (bset_of_sorted _) I1)). assert (B := proj1 (sorted_length _ _ (proj2 X) (bset_of_sorted _) I2)). fold all2 in A, B. lia.
  Qed.
  Lemma some_atom2 x : good2 x -> atoms2 x <> [].
  Proof. intros (_ & A & _). unfold atoms2. destruct (as_left x); [congruence|discriminate]. Qed.
  Lemma one_good2 a b : fits W U [a] [b] -> good2 (as_new a b).
  Proof. intros H. split; [apply tidy_both; split; apply bsorted_one|exact H]. Qed.
  Lemma first2_In t : In t (filter (w3_valid p w3) (map (fun ab => as_new (fst ab) (snd ab)) (list_prod (r_all_event_classes ord 83 (np_info p)) (r_all_event_classes ord 84 (np_info p))))) <->
    exists a b, fits W U [a] [b] /\ t = as_new a b.
  Proof.
    rewrite filter_In, in_map_iff, w3_valid_proof. split.
    - intros ((ab & <- & _) & H). exists (fst ab), (snd ab). split; [|reflexivity]. split; [discriminate|]. split; [discriminate|]. exact H.
    - intros (a & b & (_ & _ & H) & ->). split; [|exact H]. assert (Hw : In (a, b) w3) by (apply H; left; reflexivity). exists (a, b). split; [reflexivity|].
      apply in_prod; [apply (w3_seen a b 83 Hw)|apply (w3_seen a b 84 Hw)].
  Qed.
  Lemma first2_good : Forall good2 (first_pairs ord p w3) /\ NoDup (map as_key (first_pairs ord p w3)) /\
    forall a b, fits W U [a] [b] -> exists t, In t (first_pairs ord p w3) /\ as_key t = as_key (as_new a b).
  Proof.
    unfold first_pairs. match goal with |- context [fold_left _ ?l _] => destruct (dedup_proof as_key as_eqb as_eqb_key l [] (NoDup_nil _)) as (A & B & C) end.
    split; [|split; [exact A|]].
    - apply Forall_forall. intros t Ht. destruct (B t Ht) as [H|[]]. apply first2_In in H. destruct H as (a & b & H & ->). apply one_good2, H.
    - intros a b H. apply C. left. apply first2_In. eauto.
  Qed.
  Lemma find_pairs_any : exists fuel0 r, (forall fuel, fuel0 <= fuel -> find_pairs ord fuel p w3 = Ok r) /\ Forall good2 r /\ NoDup (map as_key r) /\
    (forall x y w, In x r -> In y r -> as_key x <> as_key y -> good2 w -> incl (atoms2 x) (atoms2 w) -> ~ incl (atoms2 y) (atoms2 w)).
  Proof.
    destruct first2_good as (F & N & _).
    exact (unite_ends as_key as_eqb (w3_merger p w3) ord good2 atoms2 _ as_eqb_key O pair_unites key2_size key2_bounded (first_pairs ord p w3) 3000 F N).
  Qed.
  Lemma find_pairs_largest : clear_lists (fits W U) -> exists fuel0 r, (forall fuel, fuel0 <= fuel -> find_pairs ord fuel p w3 = Ok r) /\ NoDup r /\
    forall x, In x r <-> tidy x /\ maximal W U (as_left x) (as_right x).
  Proof.
    intros Cl. destruct first2_good as (F & N & C).
    assert (Inj : forall x y, good2 x -> good2 y -> as_key x = as_key y -> x = y).
    { intros x y (X1 & X) (Y1 & Y) E. apply tidy_both in X1. apply tidy_both in Y1. destruct (Cl _ _ _ _ (proj1 X1) (proj2 X1) (proj1 Y1) (proj2 Y1) X Y E) as (A & B). destruct x, y. cbn in *. congruence. }
    destruct (unite_largest as_key as_eqb (w3_merger p w3) ord good2 atoms2 (length all2 + length all2) tag_dec as_eqb_key O pair_unites key2_size key2_bounded some_atom2 Inj (first_pairs ord p w3) 3000 F N) as (f & r & E & Nr & H).
    - intros w G [k x] Hx. destruct G as (W1 & F1 & F2 & FW & FA & FB).
      assert (Q : forall a b, In a (as_left w) -> In b (as_right w) -> In (as_new a b) (first_pairs ord p w3)).
      { intros a b Ha Hb. assert (Fo : fits W U [a] [b]).
        { split; [discriminate|]. split; [discriminate|]. split; [|split]; intros u v [<-|[]] [<-|[]]; auto. }
        destruct (C a b Fo) as (t & Ht & Et). rewrite <- (Inj t (as_new a b)); [exact Ht|apply (proj1 (Forall_forall _ _) F), Ht|apply one_good2, Fo|exact Et]. }
      destruct (as_left w) as [|a0 A0] eqn:Ea; [congruence|]. destruct (as_right w) as [|b0 B0] eqn:Eb; [congruence|]. rewrite <- Ea, <- Eb in *.
      assert (Ha : In a0 (as_left w)) by (rewrite Ea; left; reflexivity). assert (Hb : In b0 (as_right w)) by (rewrite Eb; left; reflexivity).
      apply atoms2_In in Hx. destruct Hx as [(-> & Hx)|(-> & Hx)]; [exists (as_new x b0)|exists (as_new a0 x)];
        (split; [apply Q; assumption|]); (split; [apply atoms2_incl; cbn; split; intros z [<-|[]]; assumption|apply atoms2_In; cbn; tauto]).
    - intros x y (X & _) (Y & _) I J. apply atoms2_incl in I. apply atoms2_incl in J. apply tidy_both in X. apply tidy_both in Y. destruct X as (X1 & X2), Y as (Y1 & Y2), I as (I1 & I2), J as (J1 & J2). destruct x, y. cbn in *.
      f_equal; apply bsorted_ext; auto; intros z; split; auto.
    - exists f, r. split; [exact E|]. split; [exact Nr|]. intros x. rewrite H. split.
      + intros ((X & Fx) & M). split; [exact X|]. split; [exact Fx|]. intros A' B' F' I1 I2.
        assert (Ew := M (mkASet (bset_of A') (bset_of B'))). rewrite <- Ew; cbn [as_left as_right].
        * split; intros z Hz; apply bset_of_In, Hz.
        * split; [apply tidy_both; split; apply bset_of_sorted|]. cbn [as_left as_right]. destruct F' as (G1 & G2 & G & GA & GB). do 2 (split; [apply bset_of_nil; assumption|]).
          split; [|split]; intros u v Hu Hv; rewrite bset_of_In in Hu, Hv; auto.
        * apply atoms2_incl. cbn [as_left as_right]. split; intros z Hz; apply bset_of_In; auto.
      + intros (X & Fx & M). split; [split; assumption|]. intros w (W1 & Fw) I. apply atoms2_incl in I. destruct I as (I1 & I2). destruct (M _ _ Fw I1 I2) as (J1 & J2).
        apply tidy_both in X. apply tidy_both in W1. destruct X as (X1 & X2), W1 as (Y1 & Y2). destruct x, w. cbn in *. f_equal; apply bsorted_ext; auto; intros z; split; auto.
  Qed.
End Pairs.

(** * Sets with extensions *)
Lemma xset_eqb_key x y : xset_eqb x y = true <-> xset_key x = xset_key y.
Proof. unfold xset_eqb. destruct (key_eq_dec _ _); split; congruence. Qed.
Definition ended (l : list pystr) : list (option N) := flat_map (fun s => map Some s ++ [None]) l.
Lemma ended_app (s s' : pystr) r r' : map Some s ++ None :: r = map Some s' ++ None :: r' -> s = s' /\ r = r'.
Proof.
  revert s'. induction s as [|x s IH]; intros [|y s'] E; cbn [map app] in E; try discriminate.
  - injection E as E. auto.
  - injection E as E1 E2. destruct (IH _ E2) as (A & B). split; congruence.
Qed.
Lemma ended_inj l : forall l' (u u' : list N), ended l ++ map Some u = ended l' ++ map Some u' -> l = l' /\ u = u'.
Proof.
  assert (No : forall (u : list N) (s : pystr) r, map Some u <> map Some s ++ None :: r).
  { intros u s r E. assert (H : In None (map Some u)) by (rewrite E; apply in_app_iff; right; left; reflexivity). apply in_map_iff in H. destruct H as (x & Hx & _). discriminate. }
  assert (Some_inj : forall u u' : list N, map Some u = map Some u' -> u = u').
  { induction u as [|x u IH]; intros [|y u'] E; cbn in E; try discriminate; [reflexivity|]. injection E as E1 E2. f_equal; auto. }
  induction l as [|s l IH]; intros [|s' l'] u u' E; unfold ended in E; cbn [flat_map app] in E; rewrite <- ?app_assoc in E; cbn [app] in E.
  - auto.
  - exfalso. exact (No _ _ _ E).
  - exfalso. exact (No _ _ _ (eq_sym E)).
  - apply ended_app in E. destruct E as (-> & E). destruct (IH _ _ _ E) as (-> & ->). auto.
Qed.
Definition aset_eq_dec : forall a b : aset, {a = b} + {a <> b}.
Proof. decide equality; apply list_eq_dec, str_eq_dec. Qed.
Definition atomsx (x : xset) : list (aset + nat * pystr) := inl (x_set x) :: map inr (map (pair 0) (x_left x) ++ map (pair 1) (x_right x)).
Lemma atomsx_inl x s : In (inl s) (atomsx x) <-> s = x_set x.
Proof. unfold atomsx. cbn [In]. split; [intros [E|H]; [congruence|]|left; congruence]. apply in_map_iff in H. destruct H as (y & Hy & _). discriminate. Qed.
Lemma atomsx_inr x k a : In (inr (k, a)) (atomsx x) <-> (k = 0 /\ In a (x_left x)) \/ (k = 1 /\ In a (x_right x)).
Proof.
  unfold atomsx. cbn [In]. transitivity (In (k, a) (map (pair 0) (x_left x) ++ map (pair 1) (x_right x))); [|rewrite in_app_iff, !in_tag; tauto].
  split; [intros [E|H]; [discriminate|]; apply in_map_iff in H; destruct H as (y & Hy & H); congruence|]. intros H. right. apply in_map, H.
Qed.
Lemma atomsx_incl x w : incl (atomsx x) (atomsx w) <-> x_set x = x_set w /\ incl (x_left x) (x_left w) /\ incl (x_right x) (x_right w).
Proof.
  split.
  - intros I. split; [apply atomsx_inl, I, atomsx_inl; reflexivity|]. split; intros a Ha; [assert (X : In (inr (0, a)) (atomsx w))|assert (X : In (inr (1, a)) (atomsx w))];
      try (apply I, atomsx_inr; intuition); apply atomsx_inr in X; intuition congruence.
  - intros (E & A & B) [s|[k a]] H; [apply atomsx_inl in H; apply atomsx_inl; congruence|]. apply atomsx_inr in H. apply atomsx_inr. firstorder.
Qed.
Lemma atomx_dec : forall a b : aset + nat * pystr, {a = b} + {a <> b}.
Proof. decide equality; [apply aset_eq_dec|apply tag_dec]. Qed.
Lemma bset_twice l : bsorted l -> bset_of (l ++ l) = l.
Proof. intros S. apply bsorted_ext; [apply bset_of_sorted|exact S|]. intros x. rewrite bset_of_In, in_app_iff. tauto. Qed.
Lemma xset_key_flat x : xset_key x = ended (as_key (x_set x)) ++ map Some (flat_map bytes (x_left x) ++ flat_map bytes (x_right x)).
Proof. unfold xset_key, ended, as_key. rewrite map_app, <- !concat_flat. reflexivity. Qed.

Section Extensions.
  Variable ord : nat -> forall A : Type, list A -> list A.
  Hypothesis O : any_order ord.
  Variable p : nprov.
  Variable arrow : pystr -> pystr -> bool.
  Variables w1 w2 : list (pystr * pystr).
  Variable sets : list aset.
  Variable S0 : pystr -> Prop.
  Variable U0 : pystr -> pystr -> Prop.
  Hypothesis S_proof : forall k c, In c (r_all_event_classes ord k (np_info p)) <-> S0 c.
  Hypothesis U_proof : forall a b, nfc_unrelated p a b = true <-> U0 a b.
  Hypothesis sets_tidy : forall s, In s sets -> tidy s.
  Hypothesis sets_clear : forall s s', In s sets -> In s' sets -> as_left s ++ as_right s = as_left s' ++ as_right s' -> s = s'.
  Notation W := (fun a b => In (a, b) w1 \/ In (a, b) w2).
  Notation U := (fun a b => U0 a b /\ arrow a b = false).
  Definition ext (x : xset) : Prop := extends S0 W U (as_left (x_set x)) (as_right (x_set x)) (x_left x) (x_right x).
  Definition goodx (x : xset) : Prop := In (x_set x) sets /\ bsorted (x_left x) /\ bsorted (x_right x) /\ ext x.
  Definition all_seen (x : xset) : Prop := forall c, In c (x_left x) \/ In c (x_right x) -> S0 c.
  Lemma in_either_proof a b : in_either w1 w2 a b = true <-> In (a, b) w1 \/ In (a, b) w2.
  Proof. unfold in_either. rewrite orb_true_iff. destruct (in_dec pair_eq_dec (a, b) w1), (in_dec pair_eq_dec (a, b) w2); intuition discriminate. Qed.
  Lemma mem_not a l : negb (str_mem a l) = true <-> ~ In a l.
  Proof. rewrite negb_true_iff, <- (str_mem_spec a l). destruct (str_mem a l); intuition congruence. Qed.
  Lemma xset_valid_proof x : all_seen x -> (xset_valid p arrow w1 w2 x = true <-> ext x).
  Proof.
    intros Se. unfold xset_valid. cbv zeta. rewrite !andb_true_iff, !forallb_forall. split.
    - intros (((((A & B) & C) & D) & E) & F). split.
      + intros a Ha. split; [apply Se; auto|]. apply mem_not, A, Ha.
      + intros b Hb. split; [apply Se; auto|]. apply mem_not, B, Hb.
      + intros a b Ha Hb. specialize (C a Ha). rewrite forallb_forall in C. apply in_either_proof, C, Hb.
      + intros a b Ha Hb. assert (X := D b (proj2 (in_app_iff _ _ _) (or_introl Hb))). rewrite forallb_forall in X. apply in_either_proof, X, Ha.
      + intros a b Ha Hb. assert (X := D b (proj2 (in_app_iff _ _ _) (or_intror Hb))). rewrite forallb_forall in X. apply in_either_proof, X, Ha.
      + intros a a' Ha Ha'. assert (X := E a' Ha'). rewrite forallb_forall in X. specialize (X a Ha). apply andb_true_iff in X. rewrite U_proof, negb_true_iff in X. exact X.
      + intros b' b Hb' Hb. assert (X := F b' Hb'). rewrite forallb_forall in X. specialize (X b Hb). apply andb_true_iff in X. rewrite U_proof, negb_true_iff in X. exact X.
    - intros [A B C D D' E F]. repeat split.
      + intros a Ha. apply mem_not, (A a Ha).
      + intros b Hb. apply mem_not, (B b Hb).
      + intros a Ha. apply forallb_forall. intros b Hb. apply in_either_proof. auto.
      + intros b Hb. apply forallb_forall. intros a Ha. apply in_either_proof. apply in_app_iff in Hb. destruct Hb; auto.
      + intros a' Ha'. apply forallb_forall. intros a Ha. apply andb_true_iff. rewrite U_proof, negb_true_iff. auto.
      + intros b' Hb'. apply forallb_forall. intros b Hb. apply andb_true_iff. rewrite U_proof, negb_true_iff. auto.
  Qed.
  Lemma ext_seen x : ext x -> all_seen x.
  Proof. intros [A B _ _ _ _ _] c [H|H]; [apply A, H|apply B, H]. Qed.
  Lemma ext_less x y : x_set y = x_set x -> incl (x_left y) (x_left x) -> incl (x_right y) (x_right x) -> ext x -> ext y.
  Proof. intros E I J [A B C D D' F G]. unfold ext. rewrite E. split; intros; auto. Qed.
  Lemma xset_unites x y : goodx x -> goodx y -> match xset_merger p arrow w1 w2 x y with
    | Some z => goodx z /\ forall a, In a (atomsx z) <-> In a (atomsx x) \/ In a (atomsx y)
    | None => forall w, goodx w -> incl (atomsx x) (atomsx w) -> ~ incl (atomsx y) (atomsx w)
    end.
  Proof.
    intros X Y. unfold xset_merger. destruct (as_eqb (x_set x) (x_set y)) eqn:Es.
    - apply as_eqb_key in Es. assert (E : x_set x = x_set y) by (apply sets_clear; [apply X|apply Y|exact Es]). cbv zeta. set (z := xset_merge x y).
      assert (Ez : x_set z = x_set x).
      { assert (T := sets_tidy _ (proj1 X)). apply tidy_both in T. unfold z, xset_merge, extend. cbn [x_set]. rewrite <- E, !bset_twice by apply T. destruct (x_set x); reflexivity. }
      assert (Az : forall a, In a (atomsx z) <-> In a (atomsx x) \/ In a (atomsx y)).
      { intros [s|[k a]]; [rewrite !atomsx_inl, Ez; intuition congruence|]. rewrite !atomsx_inr. unfold z, xset_merge. cbn [x_left x_right]. rewrite !bset_of_In, !in_app_iff. tauto. }
      assert (Se : all_seen z).
      { intros c H. unfold z, xset_merge in H. cbn [x_left x_right] in H. rewrite !bset_of_In, !in_app_iff in H. assert (Sx := ext_seen x (proj2 (proj2 (proj2 X)))). assert (Sy := ext_seen y (proj2 (proj2 (proj2 Y)))). unfold all_seen in *. destruct H as [[H|H]|[H|H]]; auto. }
      destruct (xset_valid p arrow w1 w2 z) eqn:V.
      + split; [|exact Az]. split; [rewrite Ez; apply X|]. split; [apply bset_of_sorted|]. split; [apply bset_of_sorted|]. apply (xset_valid_proof z Se), V.
      + intros w Gw Ix Iy. assert (Iz : incl (atomsx z) (atomsx w)) by (intros a Ha; apply Az in Ha; destruct Ha as [Ha|Ha]; auto). apply atomsx_incl in Iz. destruct Iz as (I1 & I2 & I3).
        assert (V' : xset_valid p arrow w1 w2 z = true) by (apply (xset_valid_proof z Se), (ext_less w z I1 I2 I3), Gw). congruence.
    - intros w _ Ix Iy. apply atomsx_incl in Ix. apply atomsx_incl in Iy. assert (E : x_set x = x_set y) by (destruct Ix, Iy; congruence).
      assert (H : as_eqb (x_set x) (x_set y) = true) by (apply as_eqb_key; congruence). congruence.
  Qed.
  Lemma keyx_size x z : goodx x -> goodx z -> incl (atomsx x) (atomsx z) -> length (xset_key x) <= length (xset_key z) /\ (length (xset_key z) = length (xset_key x) -> xset_key z = xset_key x).
  Proof.
    intros (_ & X1 & X2 & _) (_ & Z1 & Z2 & _) I. apply atomsx_incl in I. destruct I as (E & I1 & I2). rewrite !xset_key_flat, E, !app_length, !map_length, !app_length.
    destruct (sorted_text bytes _ _ X1 Z1 I1) as (A1 & A2). destruct (sorted_text bytes _ _ X2 Z2 I2) as (B1 & B2). split; [lia|]. intros L. rewrite A2, B2 by lia. reflexivity.
  Qed.
  Definition boundx : nat := fold_right (fun s n => length (ended (as_key s)) + n) 0 sets + 2 * length (flat_map bytes (bset_of (r_all_event_classes ord 0 (np_info p)))).
  Lemma keyx_bounded x : goodx x -> length (xset_key x) <= boundx.
  Proof.
    intros (X & X1 & X2 & E). rewrite xset_key_flat, app_length, map_length, app_length. unfold boundx. apply ext_seen in E.
    assert (I1 : incl (x_left x) (bset_of (r_all_event_classes ord 0 (np_info p)))) by (intros c H; apply bset_of_In, S_proof, E; auto).
    assert (I2 : incl (x_right x) (bset_of (r_all_event_classes ord 0 (np_info p)))) by (intros c H; apply bset_of_In, S_proof, E; auto).
    assert (A := proj1 (sorted_text bytes _ _ X1 (bset_of_sorted _) I1)). assert (B := proj1 (sorted_text bytes _ _ X2 (bset_of_sorted _) I2)).
    assert (C : length (ended (as_key (x_set x))) <= fold_right (fun s n => length (ended (as_key s)) + n) 0 sets).
    { clear - X. induction sets as [|s l IH]; [destruct X|]. cbn [fold_right]. destruct X as [->|X]; [lia|]. specialize (IH X). lia. }
    lia.
  Qed.
  Lemma some_atomx x : goodx x -> atomsx x <> [].
  Proof. discriminate. Qed.
  Lemma firstx_good : Forall goodx (first_xsets ord p arrow w1 w2 sets) /\ NoDup (map xset_key (first_xsets ord p arrow w1 w2 sets)) /\
    forall s a, In s sets -> (ext (mkXSet s [a] []) -> exists t, In t (first_xsets ord p arrow w1 w2 sets) /\ xset_key t = xset_key (mkXSet s [a] [])) /\
      (ext (mkXSet s [] [a]) -> exists t, In t (first_xsets ord p arrow w1 w2 sets) /\ xset_key t = xset_key (mkXSet s [] [a])) /\
      exists t, In t (first_xsets ord p arrow w1 w2 sets) /\ xset_key t = xset_key (mkXSet s [] []).
  Proof.
    unfold first_xsets. cbv zeta. match goal with |- context [fold_left _ ?l _] => destruct (dedup_proof xset_key xset_eqb xset_eqb_key l [] (NoDup_nil _)) as (A & B & C) end.
    split; [|split; [exact A|]].
    - apply Forall_forall. intros t Ht. destruct (B t Ht) as [H|[]]. apply in_app_iff in H. destruct H as [H|H].
      + apply filter_In in H. destruct H as (H & V). apply in_flat_map in H. destruct H as (s & Hs & H). apply in_app_iff in H. destruct H as [H|H].
        * apply in_map_iff in H. destruct H as ((a & b) & <- & H). apply in_prod_iff in H. cbn [fst snd] in *. split; [exact Hs|]. split; [apply bsorted_one|]. split; [apply bsorted_one|]. apply xset_valid_proof; [|exact V].
          intros c [[<-|[]]|[<-|[]]]; [apply (S_proof 80)|apply (S_proof 81)]; apply H.
        * apply in_flat_map in H. destruct H as (c & Hc & [<-|[<-|[]]]).
          -- split; [exact Hs|]. split; [apply bsorted_one|]. split; [apply SSorted_nil|]. apply xset_valid_proof; [|exact V]. intros d [[<-|[]]|[]]. apply (S_proof 82), Hc.
          -- split; [exact Hs|]. split; [apply SSorted_nil|]. split; [apply bsorted_one|]. apply xset_valid_proof; [|exact V]. intros d [[]|[<-|[]]]. apply (S_proof 82), Hc.
      + apply in_map_iff in H. destruct H as (s & <- & Hs). split; [exact Hs|]. split; [constructor|]. split; [constructor|]. split; cbn; tauto.
    - intros s a Hs. split; [|split].
      + intros E. apply C. left. apply in_app_iff. left. apply filter_In. split; [|apply xset_valid_proof; [apply ext_seen|]; exact E]. apply in_flat_map. exists s. split; [exact Hs|]. apply in_app_iff. right.
        apply in_flat_map. exists a. split; [|left; reflexivity]. apply (S_proof 82), (ext_seen _ E). left. left. reflexivity.
      + intros E. apply C. left. apply in_app_iff. left. apply filter_In. split; [|apply xset_valid_proof; [apply ext_seen|]; exact E]. apply in_flat_map. exists s. split; [exact Hs|]. apply in_app_iff. right.
        apply in_flat_map. exists a. split; [|right; left; reflexivity]. apply (S_proof 82), (ext_seen _ E). right. left. reflexivity.
      + apply C. left. apply in_app_iff. right. apply in_map_iff. exists s. auto.
  Qed.
  Lemma find_xsets_any : exists fuel0 r, (forall fuel, fuel0 <= fuel -> find_xsets ord fuel p arrow w1 w2 sets = Ok r) /\ Forall goodx r.
  Proof.
    destruct firstx_good as (F & N & _).
    destruct (unite_ends xset_key xset_eqb (xset_merger p arrow w1 w2) ord goodx atomsx _ xset_eqb_key O xset_unites keyx_size keyx_bounded (first_xsets ord p arrow w1 w2 sets) 2000 F N) as (f & r & E & G & _).
    exists f, r. auto.
  Qed.
  Lemma find_xsets_largest : (forall s, In s sets -> clear_extensions (extends S0 W U (as_left s) (as_right s))) ->
    exists fuel0 r, (forall fuel, fuel0 <= fuel -> find_xsets ord fuel p arrow w1 w2 sets = Ok r) /\ NoDup r /\
    forall x, In x r <-> In (x_set x) sets /\ bsorted (x_left x) /\ bsorted (x_right x) /\ full_extension S0 W U (as_left (x_set x)) (as_right (x_set x)) (x_left x) (x_right x).
  Proof.
    intros Cl. destruct firstx_good as (F & N & C).
    assert (Inj : forall x y, goodx x -> goodx y -> xset_key x = xset_key y -> x = y).
    { intros x y (X & X1 & X2 & X3) (Y & Y1 & Y2 & Y3) E. rewrite !xset_key_flat in E. apply ended_inj in E. destruct E as (E1 & E2). assert (Es := sets_clear _ _ X Y E1).
      unfold ext in Y3. rewrite <- Es in Y3. rewrite <- !concat_flat in E2. destruct (Cl _ X _ _ _ _ X1 X2 Y1 Y2 X3 Y3 E2) as (E3 & E4). destruct x, y. cbn in *. congruence. }
    assert (Sub : forall s A B a, ext (mkXSet s A B) -> In s sets -> (In a A -> In (mkXSet s [a] []) (first_xsets ord p arrow w1 w2 sets)) /\ (In a B -> In (mkXSet s [] [a]) (first_xsets ord p arrow w1 w2 sets)) /\ In (mkXSet s [] []) (first_xsets ord p arrow w1 w2 sets)).
    { intros s A B a E Hs. destruct (C s a Hs) as (C1 & C2 & C3).
      assert (G : forall u, goodx u -> (exists t, In t (first_xsets ord p arrow w1 w2 sets) /\ xset_key t = xset_key u) -> In u (first_xsets ord p arrow w1 w2 sets)).
      { intros u Gu (t & Ht & Et). rewrite <- (Inj t u); auto. apply (proj1 (Forall_forall _ _) F), Ht. }
      split; [|split].
      - intros Ha. assert (X : ext (mkXSet s [a] [])) by (apply (ext_less (mkXSet s A B)); [reflexivity| | |exact E]; first [apply incl_nil_l|apply incl_one, Ha]). apply G; [|exact (C1 X)]. split; [exact Hs|]. split; [apply bsorted_one|]. split; [constructor|exact X].
      - intros Ha. assert (X : ext (mkXSet s [] [a])) by (apply (ext_less (mkXSet s A B)); [reflexivity| | |exact E]; first [apply incl_nil_l|apply incl_one, Ha]). apply G; [|exact (C2 X)]. split; [exact Hs|]. split; [constructor|]. split; [apply bsorted_one|exact X].
      - apply G; [|exact C3]. split; [exact Hs|]. split; [constructor|]. split; [constructor|]. apply (ext_less (mkXSet s A B)); cbn; auto; intros z []. }
    destruct (unite_largest xset_key xset_eqb (xset_merger p arrow w1 w2) ord goodx atomsx boundx atomx_dec xset_eqb_key O xset_unites keyx_size keyx_bounded some_atomx Inj (first_xsets ord p arrow w1 w2 sets) 2000 F N) as (f & r & E & Nr & H).
    - intros w (Gs & G1 & G2 & G3) [s|[k a]] Ha.
      + apply atomsx_inl in Ha. subst s. exists (mkXSet (x_set w) [] []). split; [|split; [apply atomsx_incl; split; [reflexivity|split; apply incl_nil_l]|apply atomsx_inl; reflexivity]].
        destruct w as [s A B]. cbn in *. exact (proj2 (proj2 (Sub s A B [] G3 Gs))).
      + destruct w as [s A B]. destruct (Sub s A B a G3 Gs) as (Q1 & Q2 & _). apply atomsx_inr in Ha. cbn in Ha. destruct Ha as [(-> & Ha)|(-> & Ha)];
          [exists (mkXSet s [a] []); split; [exact (Q1 Ha)|]|exists (mkXSet s [] [a]); split; [exact (Q2 Ha)|]];
          (split; [apply atomsx_incl; split; [reflexivity|split; first [apply incl_nil_l|apply incl_one, Ha]]|apply atomsx_inr; cbn; tauto]).
    - intros x y (_ & X1 & X2 & _) (_ & Y1 & Y2 & _) I J. apply atomsx_incl in I. apply atomsx_incl in J. destruct I as (E1 & I1 & I2), J as (_ & J1 & J2). destruct x, y. cbn in *.
      f_equal; [exact E1| |]; apply bsorted_ext; auto; intros z; split; auto.
    - exists f, r. split; [exact E|]. split; [exact Nr|]. intros x. rewrite H. split.
      + intros ((X & X1 & X2 & X3) & M). split; [exact X|]. split; [exact X1|]. split; [exact X2|]. split; [exact X3|]. intros A' B' E' I1 I2.
        assert (Ew := M (mkXSet (x_set x) (bset_of A') (bset_of B'))). rewrite <- Ew; cbn [x_left x_right].
        * split; intros z Hz; apply bset_of_In, Hz.
        * split; [exact X|]. split; [apply bset_of_sorted|]. split; [apply bset_of_sorted|]. unfold ext. cbn [x_set x_left x_right]. destruct E' as [Q1 Q2 Q3 Q4 Q5 Q6 Q7].
          split; intros *; rewrite ?bset_of_In; auto.
        * apply atomsx_incl. cbn [x_set x_left x_right]. split; [reflexivity|]. split; intros z Hz; apply bset_of_In; auto.
      + intros (X & X1 & X2 & X3 & M). split; [exact (conj X (conj X1 (conj X2 X3)))|]. intros w (Gs & G1 & G2 & G3) I. apply atomsx_incl in I. destruct I as (E1 & I1 & I2).
        unfold ext in G3. rewrite <- E1 in G3. destruct (M _ _ G3 I1 I2) as (J1 & J2). destruct x, w. cbn in *. f_equal; [auto| |]; apply bsorted_ext; auto; intros z; split; auto.
  Qed.
End Extensions.
