(** Proofs about maximize with mergers which unite elements whenever the union is allowed. *)
From Coq Require Import Permutation.
From Verif Require Import Py PyFacts AlphaModel.

(** * Lists of numbers which get smaller from the left *)
Inductive lexlt : list nat -> list nat -> Prop :=
| lex_head a b l l' : a < b -> length l = length l' -> lexlt (a :: l) (b :: l')
| lex_tail a l l' : lexlt l l' -> lexlt (a :: l) (a :: l').
Lemma lexlt_length l l' : lexlt l l' -> length l = length l'.
Proof. induction 1; cbn; congruence. Qed.
Lemma lexlt_Acc n : forall l, length l = n -> Acc lexlt l.
Proof.
  induction n as [|n IH]; intros l Hl.
  - destruct l; [|discriminate]. constructor. intros y H. inversion H.
  - destruct l as [|a l]; [discriminate|]. cbn in Hl. injection Hl as Hl. revert l Hl. induction a as [a IHa] using lt_wf_ind. intros l Hl.
    assert (A := IH l Hl). revert Hl. induction A as [l _ IHl]. intros Hl. constructor. intros y H. inversion H as [a' b m m' Ha Hm|a' m m' Hm]; subst.
    + apply IHa; [exact Ha|congruence].
    + apply IHl; [exact Hm|]. rewrite (lexlt_length _ _ Hm). reflexivity.
Qed.

Lemma least (f : nat -> nat) l : l <> [] -> exists i, In i l /\ forall j, In j l -> f i <= f j.
Proof.
  induction l as [|i l IH]; intros H; [contradiction|]. destruct l as [|i' l'].
  - exists i. split; [left; reflexivity|]. intros j [<-|[]]. lia.
  - destruct IH as (k & Hk & L); [discriminate|]. destruct (le_lt_dec (f i) (f k)) as [D|D].
    + exists i. split; [left; reflexivity|]. intros j [<-|Hj]; [lia|]. specialize (L j Hj). lia.
    + exists k. split; [right; exact Hk|]. intros j [<-|Hj]; [lia|]. apply L, Hj.
Qed.

Section Max.
  Context {T K : Type}.
  Variable key : T -> list K.
  Variable eqb : T -> T -> bool.
  Variable merger : T -> T -> option T.
  Variable ord : nat -> forall A : Type, list A -> list A.
  Variable P : T -> Prop.
  Variable bound : nat.
  Hypothesis eqb_key : forall x y, eqb x y = true <-> key x = key y.
  Hypothesis O : forall k A (l : list A), Permutation (ord k A l) l.
  Hypothesis merger_P : forall x y z, P x -> P y -> merger x y = Some z -> P z.
  Hypothesis grows : forall x y z, P x -> P y -> merger x y = Some z ->
    (length (key x) <= length (key z) /\ length (key y) <= length (key z)) /\
    (length (key z) = length (key x) -> key z = key x) /\ (length (key z) = length (key y) -> key z = key y).
  Hypothesis bounded : forall x, P x -> length (key x) <= bound.

  Lemma hadd_keys s x : NoDup (map key s) -> NoDup (map key (hadd eqb s x)).
  Proof.
    intros N. unfold hadd. destruct (existsb (eqb x) s) eqn:E; [exact N|]. rewrite map_app. cbn [map].
    apply (Permutation_NoDup (l := key x :: map key s)); [apply Permutation_cons_append|]. constructor; [|exact N].
    intros H. apply in_map_iff in H. destruct H as (y & Ey & Hy). assert (X : existsb (eqb x) s = true) by (apply existsb_exists; exists y; split; [exact Hy|apply eqb_key; congruence]). congruence.
  Qed.
  Lemma hadd_from s x y : In y (hadd eqb s x) -> y = x \/ In y s.
  Proof. unfold hadd. destruct (existsb (eqb x) s); [auto|]. rewrite in_app_iff. cbn. intuition. Qed.
  Lemma hadd_keeps s x y : In y s -> In y (hadd eqb s x).
  Proof. unfold hadd. destruct (existsb (eqb x) s); [auto|]. rewrite in_app_iff. auto. Qed.
  Lemma hadd_has s x : exists y, In y (hadd eqb s x) /\ key y = key x.
  Proof.
    unfold hadd. destruct (existsb (eqb x) s) eqn:E.
    - apply existsb_exists in E. destruct E as (y & Hy & E). exists y. split; [exact Hy|]. symmetry. apply eqb_key, E.
    - exists x. rewrite in_app_iff. cbn. auto.
  Qed.
  Lemma nadd_in s i j : In j (nadd s i) <-> j = i \/ In j s.
  Proof.
    unfold nadd. destruct (existsb (Nat.eqb i) s) eqn:E; [|rewrite in_app_iff; cbn; intuition].
    apply existsb_exists in E. destruct E as (k & Hk & E). apply Nat.eqb_eq in E. subst k. split; [auto|]. intros [->|H]; assumption.
  Qed.

  Definition merges (vec : list T) (i j : nat) (z : T) : Prop :=
    i <> j /\ exists x y, nth_error vec i = Some x /\ nth_error vec j = Some y /\ merger x y = Some z.
  Lemma pairs_fold vec ps : forall new mi ch new' mi' ch', fold_left (max_pair eqb merger vec) ps (new, mi, ch) = (new', mi', ch') ->
    (NoDup (map key new) -> NoDup (map key new')) /\ incl new new' /\ incl mi mi' /\ (ch = true -> ch' = true) /\
    (forall z, In z new' -> In z new \/ exists i j, In (i, j) ps /\ merges vec i j z) /\
    (forall k, In k mi' -> In k mi \/ exists j z, merges vec k j z \/ merges vec j k z) /\
    (ch' = true -> ch = true \/ exists i j z, merges vec i j z) /\
    (forall i j z, In (i, j) ps -> merges vec i j z -> ch' = true /\ In i mi' /\ In j mi' /\ exists z', In z' new' /\ key z' = key z).
  Proof.
    induction ps as [|[i j] ps IH]; intros new mi ch new' mi' ch' H.
    - cbn in H. injection H as <- <- <-. split; [auto|]. split; [apply incl_refl|]. split; [apply incl_refl|]. do 4 (split; [auto|]). intros ? ? ? [].
    - cbn [fold_left] in H. destruct (max_pair eqb merger vec (new, mi, ch) (i, j)) as [[n1 m1] c1] eqn:E.
      destruct (IH _ _ _ _ _ _ H) as (A1 & A2 & A3 & A4 & A5 & A6 & A7 & A8). unfold max_pair in E.
      assert (D : (n1 = new /\ m1 = mi /\ c1 = ch /\ forall z, ~ merges vec i j z) \/ exists z, merges vec i j z /\ n1 = hadd eqb new z /\ m1 = nadd (nadd mi i) j /\ c1 = true).
      { destruct (i =? j) eqn:Eij.
        - apply Nat.eqb_eq in Eij. left. injection E as <- <- <-. repeat split; auto. intros z [X _]. contradiction.
        - apply Nat.eqb_neq in Eij. destruct (nth_error vec i) as [x|] eqn:Ex; [|left; injection E as <- <- <-; repeat split; auto; intros z (_ & x & y & X & _); congruence].
          destruct (nth_error vec j) as [y|] eqn:Ey; [|left; injection E as <- <- <-; repeat split; auto; intros z (_ & x' & y & _ & X & _); congruence].
          destruct (merger x y) as [z|] eqn:Ez.
          + right. injection E as <- <- <-. exists z. repeat split; auto. exists x, y. auto.
          + left. injection E as <- <- <-. repeat split; auto. intros z (_ & x' & y' & X & Y & Z). congruence. }
      destruct D as [(-> & -> & -> & D)|(z & D & -> & -> & ->)].
      + split; [exact A1|]. split; [exact A2|]. split; [exact A3|]. split; [exact A4|]. split; [|split; [exact A6|split; [exact A7|]]].
        * intros z Hz. destruct (A5 z Hz) as [?|(a & b & X & Y)]; [auto|]. right. exists a, b. split; [right; exact X|exact Y].
        * intros a b z [X|X] Y; [injection X as <- <-; exfalso; exact (D z Y)|]. exact (A8 a b z X Y).
      + split; [intros N; apply A1, hadd_keys, N|]. split; [intros w Hw; apply A2, hadd_keeps, Hw|]. split; [intros w Hw; apply A3; rewrite !nadd_in; auto|]. split; [intros _; apply A4; reflexivity|].
        split; [|split; [|split]].
        * intros w Hw. destruct (A5 w Hw) as [X|(a & b & X & Y)]; [|right; exists a, b; split; [right; exact X|exact Y]].
          apply hadd_from in X. destruct X as [->|X]; [|auto]. right. exists i, j. split; [left; reflexivity|exact D].
        * intros k Hk. destruct (A6 k Hk) as [X|X]; [|auto]. rewrite !nadd_in in X. destruct X as [->|[->|X]]; [| |auto]; right; [exists i, z|exists j, z]; auto.
        * intros _. right. exists i, j, z. exact D.
        * intros a b w [X|X] Y; [|exact (A8 a b w X Y)]. injection X as <- <-.
          assert (w = z) by (destruct Y as (_ & x1 & y1 & B1 & B2 & B3), D as (_ & x2 & y2 & C1 & C2 & C3); congruence). subst w.
          split; [apply A4; reflexivity|]. split; [apply A3; rewrite !nadd_in; auto|]. split; [apply A3; rewrite !nadd_in; auto|].
          destruct (hadd_has new z) as (z' & Hz & Ek). exists z'. split; [apply A2, Hz|exact Ek].
  Qed.
  Lemma keep_fold vec mi ids : forall new new', fold_left (fun new i => if existsb (Nat.eqb i) mi then new else match nth_error vec i with Some x => hadd eqb new x | None => new end) ids new = new' ->
    (NoDup (map key new) -> NoDup (map key new')) /\ incl new new' /\
    (forall z, In z new' -> In z new \/ exists i, ~ In i mi /\ nth_error vec i = Some z) /\
    (forall i x, In i ids -> ~ In i mi -> nth_error vec i = Some x -> exists x', In x' new' /\ key x' = key x).
  Proof.
    induction ids as [|i ids IH]; intros new new' H.
    - cbn in H. subst. split; [auto|]. split; [apply incl_refl|]. split; [auto|]. intros ? ? [].
    - cbn [fold_left] in H. destruct (IH _ _ H) as (A1 & A2 & A3 & A4). destruct (existsb (Nat.eqb i) mi) eqn:E.
      + split; [exact A1|]. split; [exact A2|]. split; [exact A3|]. intros j x [<-|Hj] Nm; [|apply A4; assumption]. exfalso. apply Nm. apply existsb_exists in E. destruct E as (k & Hk & E). apply Nat.eqb_eq in E. subst. exact Hk.
      + assert (Ni : ~ In i mi). { intros X. assert (Y : existsb (Nat.eqb i) mi = true) by (apply existsb_exists; exists i; split; [exact X|apply Nat.eqb_refl]). congruence. }
        destruct (nth_error vec i) as [x|] eqn:Ex.
        * split; [intros N; apply A1, hadd_keys, N|]. split; [intros w Hw; apply A2, hadd_keeps, Hw|]. split.
          -- intros z Hz. destruct (A3 z Hz) as [X|X]; [|auto]. apply hadd_from in X. destruct X as [->|X]; [right; exists i; auto|auto].
          -- intros j y [<-|Hj] Nm Ey; [|apply (A4 j y Hj Nm Ey)]. assert (y = x) by congruence. subst y. destruct (hadd_has new x) as (x' & Hx & Ek). exists x'. split; [apply A2, Hx|exact Ek].
        * split; [exact A1|]. split; [exact A2|]. split; [exact A3|]. intros j y [<-|Hj] Nm Ey; [congruence|]. apply (A4 j y Hj Nm Ey).
  Qed.
  Lemma round_any vec : match max_round eqb merger vec with
    | None => forall i j z, ~ merges vec i j z
    | Some new => exists mi, NoDup (map key new) /\ (exists i j z, merges vec i j z) /\
        (forall i j z, merges vec i j z -> In i mi /\ In j mi /\ exists z', In z' new /\ key z' = key z) /\
        (forall k, In k mi -> exists j z, merges vec k j z \/ merges vec j k z) /\
        (forall z, In z new -> (exists i j, merges vec i j z) \/ exists i, ~ In i mi /\ nth_error vec i = Some z) /\
        (forall i x, ~ In i mi -> nth_error vec i = Some x -> exists x', In x' new /\ key x' = key x)
    end.
  Proof.
    unfold max_round. set (ps := list_prod _ _). destruct (fold_left (max_pair eqb merger vec) ps ([], [], false)) as [[new mi] ch] eqn:E.
    destruct (pairs_fold vec ps _ _ _ _ _ _ E) as (A1 & A2 & A3 & A4 & A5 & A6 & A7 & A8).
    assert (L : forall i x, nth_error vec i = Some x -> In i (seq 0 (length vec))) by (intros i x X; apply in_seq; assert (i < length vec) by (apply nth_error_Some; congruence); lia).
    assert (F : forall i j z, merges vec i j z -> In (i, j) ps) by (intros i j z (_ & x & y & X & Y & _); apply in_prod; eauto).
    destruct ch.
    - destruct (keep_fold vec mi (seq 0 (length vec)) new _ eq_refl) as (B1 & B2 & B3 & B4). set (res := fold_left _ _ new) in *. exists mi.
      split; [apply B1, A1; constructor|]. split; [destruct (A7 eq_refl) as [X|X]; [discriminate|exact X]|]. split; [|split; [|split]].
      + intros i j z M. destruct (A8 i j z (F i j z M) M) as (_ & X & Y & z' & Hz & Ek). split; [exact X|]. split; [exact Y|]. exists z'. split; [apply B2, Hz|exact Ek].
      + intros k Hk. destruct (A6 k Hk) as [[]|X]. exact X.
      + intros z Hz. destruct (B3 z Hz) as [X|X]; [|right; exact X]. destruct (A5 z X) as [[]|(i & j & _ & M)]. left. eauto.
      + intros i x Ni Ex. apply (B4 i x (L i x Ex) Ni Ex).
    - intros i j z M. destruct (A8 i j z (F i j z M) M) as (X & _). discriminate.
  Qed.

  (** ** It ends *)
  Definition of_size (k : nat) (x : T) : bool := length (key x) =? k.
  Definition count (k : nat) (vec : list T) : nat := length (filter (of_size k) vec).
  Definition counts (n : nat) (vec : list T) : list nat := map (fun k => count k vec) (seq 0 n).
  Lemma lex_from f g n : forall s k, s <= k < s + n -> (forall j, s <= j < k -> f j <= g j) -> f k < g k -> lexlt (map f (seq s n)) (map g (seq s n)).
  Proof.
    induction n as [|n IH]; intros s k H L Lk; [lia|]. cbn [seq map]. destruct (Nat.eq_dec s k) as [->|Ns].
    - apply lex_head; [exact Lk|rewrite !map_length; reflexivity].
    - assert (L0 := L s ltac:(lia)). destruct (Nat.eq_dec (f s) (g s)) as [E|E].
      + rewrite E. apply lex_tail. apply (IH (S s) k); [lia|intros j Hj; apply L; lia|exact Lk].
      + apply lex_head; [lia|rewrite !map_length; reflexivity].
  Qed.
  Lemma NoDup_filter_keys f vec : NoDup (map key vec) -> NoDup (map key (filter f vec)).
  Proof.
    induction vec as [|x vec IH]; cbn [map filter]; intros N; [constructor|]. inversion N as [|? ? H N']; subst. destruct (f x); [|apply IH, N']. cbn [map]. constructor; [|apply IH, N'].
    intros X. apply H. apply in_map_iff in X. destruct X as (y & E & Y). apply filter_In in Y. rewrite <- E. apply in_map. tauto.
  Qed.
  Lemma key_at vec i j x y : NoDup (map key vec) -> nth_error vec i = Some x -> nth_error vec j = Some y -> key x = key y -> i = j.
  Proof.
    intros N Hi Hj E. apply (proj1 (NoDup_nth_error (map key vec)) N); [rewrite map_length; apply nth_error_Some; congruence|].
    rewrite (map_nth_error key i vec Hi), (map_nth_error key j vec Hj). congruence.
  Qed.
  Lemma round_smaller vec new : Forall P vec -> NoDup (map key vec) -> max_round eqb merger vec = Some new ->
    Forall P new /\ NoDup (map key new) /\ lexlt (counts (S bound) new) (counts (S bound) vec).
  Proof.
    intros F N E. assert (R := round_any vec). rewrite E in R. destruct R as (mi & N' & (i0 & j0 & z0 & M0) & R1 & R2 & R3 & R4).
    assert (Pv : forall i x, nth_error vec i = Some x -> P x) by (intros i x X; apply (proj1 (Forall_forall P vec) F), (nth_error_In _ _ X)).
    assert (Pn : Forall P new).
    { apply Forall_forall. intros z Hz. destruct (R3 z Hz) as [(i & j & _ & x & y & X & Y & Z)|(i & _ & X)]; [exact (merger_P x y z (Pv _ _ X) (Pv _ _ Y) Z)|exact (Pv _ _ X)]. }
    split; [exact Pn|]. split; [exact N'|].
    set (f := fun i => match nth_error vec i with Some x => length (key x) | None => 0 end).
    assert (I0 : mi <> []) by (intros X; destruct (R1 _ _ _ M0) as (H & _); rewrite X in H; destruct H).
    destruct (least f mi I0) as (m & Hm & Lm).
    assert (Xm : exists x, nth_error vec m = Some x) by (destruct (R2 m Hm) as (j & z & [(_ & x & y & X & Y & _)|(_ & x & y & X & Y & _)]); eauto). destruct Xm as (xm & Xm).
    assert (Fm : f m = length (key xm)) by (unfold f; rewrite Xm; reflexivity).
    assert (Big : forall i j z, merges vec i j z -> f m < length (key z)).
    { intros i j z M. destruct (R1 i j z M) as (Hi & Hj & _). destruct M as (Nij & x & y & X & Y & Z). assert (Li := Lm i Hi). assert (Lj := Lm j Hj). unfold f in Li, Lj at 2. rewrite X in Li. rewrite Y in Lj. fold (f m) in Li, Lj.
      destruct (grows x y z (Pv _ _ X) (Pv _ _ Y) Z) as ((G1 & G2) & G3 & G4). destruct (Nat.eq_dec (f m) (length (key z))) as [Eq|Eq]; [|lia].
      exfalso. apply Nij. apply (key_at vec i j x y N X Y). rewrite <- G3, <- G4 by lia. reflexivity. }
    assert (Old : forall k x, k <= f m -> In x (filter (of_size k) new) -> exists i, ~ In i mi /\ nth_error vec i = Some x /\ length (key x) = k).
    { intros k x Hk Hx. apply filter_In in Hx. destruct Hx as (Hx & Sx). apply Nat.eqb_eq in Sx. destruct (R3 x Hx) as [(i & j & M)|(i & A & B)]; [apply Big in M; lia|]. exists i. auto. }
    apply (lex_from (fun k => count k new) (fun k => count k vec) (S bound) 0 (f m)).
    - assert (Bm := bounded xm (Pv _ _ Xm)). lia.
    - intros k Hk. unfold count. rewrite <- (map_length key), <- (map_length key (filter (of_size k) vec)). apply NoDup_incl_length; [apply NoDup_filter_keys, N'|].
      intros w Hw. apply in_map_iff in Hw. destruct Hw as (x & <- & Hx). apply in_map. destruct (Old k x ltac:(lia) Hx) as (i & _ & B & C). apply filter_In. split; [exact (nth_error_In _ _ B)|apply Nat.eqb_eq, C].
    - unfold count. rewrite <- (map_length key), <- (map_length key (filter (of_size (f m)) vec)).
      enough (S (length (map key (filter (of_size (f m)) new))) <= length (map key (filter (of_size (f m)) vec))) by lia.
      change (S (length (map key (filter (of_size (f m)) new)))) with (length (key xm :: map key (filter (of_size (f m)) new))). apply NoDup_incl_length.
      + constructor; [|apply NoDup_filter_keys, N']. intros X. apply in_map_iff in X. destruct X as (x & Ek & Hx). destruct (Old _ x (le_n _) Hx) as (i & A & B & _). apply A. rewrite (key_at vec i m x xm N B Xm Ek). exact Hm.
      + intros w [<-|Hw].
        * apply in_map, filter_In. split; [exact (nth_error_In _ _ Xm)|apply Nat.eqb_eq; congruence].
        * apply in_map_iff in Hw. destruct Hw as (x & <- & Hx). apply in_map. destruct (Old _ x (le_n _) Hx) as (i & _ & B & C). apply filter_In. split; [exact (nth_error_In _ _ B)|apply Nat.eqb_eq, C].
  Qed.
  Lemma order_P k vec : Forall P vec -> Forall P (ord k T vec).
  Proof. intros F. apply Forall_forall. intros x Hx. apply (proj1 (Forall_forall P vec) F), (Permutation_in _ (O k T vec)), Hx. Qed.
  Lemma order_keys k vec : NoDup (map key vec) -> NoDup (map key (ord k T vec)).
  Proof. apply Permutation_NoDup, Permutation_map, Permutation_sym, O. Qed.
  Lemma Permutation_filter_length (f : T -> bool) l l' : Permutation l l' -> length (filter f l) = length (filter f l').
  Proof. induction 1; cbn [filter]; [reflexivity| | |congruence]; repeat match goal with |- context [f ?y] => destruct (f y) end; cbn; congruence. Qed.
  Lemma order_counts n k vec : counts n (ord k T vec) = counts n vec.
  Proof. apply map_ext. intros j. apply Permutation_filter_length, O. Qed.

  (** A statement about all rounds: what holds for the first elements and is kept by a round holds at the end. *)
  Lemma maximize_any (Q : list T -> Prop) : (forall k vec, Q vec -> Q (ord k T vec)) ->
    (forall vec new, Forall P vec -> NoDup (map key vec) -> Q vec -> max_round eqb merger vec = Some new -> Q new) ->
    forall vec k, Forall P vec -> NoDup (map key vec) -> Q vec ->
    exists fuel0 r, (forall fuel, fuel0 <= fuel -> maximize eqb merger ord fuel k vec = Ok r) /\ Forall P r /\ NoDup (map key r) /\ Q r /\ forall x y z, In x r -> In y r -> key x <> key y -> merger x y <> Some z.
  Proof.
    intros Qo Qr vec. assert (A := lexlt_Acc _ (counts (S bound) vec) eq_refl). remember (counts (S bound) vec) as c eqn:Ec. revert vec Ec. induction A as [c _ IH]. intros vec -> k F N Q0.
    destruct (max_round eqb merger (ord k T vec)) as [new|] eqn:E.
    - destruct (round_smaller _ _ (order_P k _ F) (order_keys k _ N) E) as (F' & N' & L). rewrite order_counts in L.
      destruct (IH _ L new eq_refl (S k) F' N' (Qr _ _ (order_P k _ F) (order_keys k _ N) (Qo k vec Q0) E)) as (f & r & Er & R). exists (S f), r. split; [|exact R].
      intros [|fuel] Hf; [lia|]. cbn [maximize]. rewrite E. apply Er. lia.
    - exists 1, vec. split; [intros [|fuel] Hf; [lia|]; cbn [maximize]; rewrite E; reflexivity|]. split; [exact F|]. split; [exact N|]. split; [exact Q0|].
      intros x y z Hx Hy Nk Z. assert (R := round_any (ord k T vec)). rewrite E in R.
      apply (Permutation_in _ (Permutation_sym (O k T vec))) in Hx. apply (Permutation_in _ (Permutation_sym (O k T vec))) in Hy.
      apply In_nth_error in Hx. destruct Hx as (i & Hi). apply In_nth_error in Hy. destruct Hy as (j & Hj). apply (R i j z). split; [intros ->; congruence|]. exists x, y. auto.
  Qed.
End Max.

(** * Uniting mergers: the largest elements are found *)
Section Unite.
  Context {T K A : Type}.
  Variable key : T -> list K.
  Variable eqb : T -> T -> bool.
  Variable merger : T -> T -> option T.
  Variable ord : nat -> forall A : Type, list A -> list A.
  Variable P : T -> Prop.
  Variable atoms : T -> list A.
  Variable bound : nat.
  Hypothesis A_dec : forall a b : A, {a = b} + {a <> b}.
  Hypothesis eqb_key : forall x y, eqb x y = true <-> key x = key y.
  Hypothesis O : forall k A (l : list A), Permutation (ord k A l) l.
  Hypothesis unites : forall x y, P x -> P y -> match merger x y with
    | Some z => P z /\ forall a, In a (atoms z) <-> In a (atoms x) \/ In a (atoms y)
    | None => forall w, P w -> incl (atoms x) (atoms w) -> ~ incl (atoms y) (atoms w)
    end.
  Hypothesis key_size : forall x z, P x -> P z -> incl (atoms x) (atoms z) -> length (key x) <= length (key z) /\ (length (key z) = length (key x) -> key z = key x).
  Hypothesis bounded : forall x, P x -> length (key x) <= bound.
  Hypothesis some_atom : forall x, P x -> atoms x <> [].

  Lemma unite_P x y z : P x -> P y -> merger x y = Some z -> P z.
  Proof. intros X Y E. assert (U := unites x y X Y). rewrite E in U. apply U. Qed.
  Lemma unite_grows x y z : P x -> P y -> merger x y = Some z ->
    (length (key x) <= length (key z) /\ length (key y) <= length (key z)) /\
    (length (key z) = length (key x) -> key z = key x) /\ (length (key z) = length (key y) -> key z = key y).
  Proof.
    intros X Y E. assert (U := unites x y X Y). rewrite E in U. destruct U as (Z & U).
    destruct (key_size x z X Z) as (A1 & A2); [intros a Ha; apply U; auto|]. destruct (key_size y z Y Z) as (B1 & B2); [intros a Ha; apply U; auto|]. auto.
  Qed.
  (** What is found in any case: every two of them cannot be united. *)
  Lemma unite_ends vec k : Forall P vec -> NoDup (map key vec) ->
    exists fuel0 r, (forall fuel, fuel0 <= fuel -> maximize eqb merger ord fuel k vec = Ok r) /\ Forall P r /\ NoDup (map key r) /\
      (forall x y w, In x r -> In y r -> key x <> key y -> P w -> incl (atoms x) (atoms w) -> ~ incl (atoms y) (atoms w)).
  Proof.
    intros F N. destruct (maximize_any key eqb merger ord P bound eqb_key O unite_P unite_grows bounded (fun _ => True)) with (vec := vec) (k := k) as (f & r & E & Fr & Nr & _ & U); auto.
    exists f, r. split; [exact E|]. split; [exact Fr|]. split; [exact Nr|]. intros x y w Hx Hy Nk Pw Ix Iy.
    assert (Px := proj1 (Forall_forall P r) Fr x Hx). assert (Py := proj1 (Forall_forall P r) Fr y Hy). assert (V := unites x y Px Py).
    destruct (merger x y) as [z|] eqn:Z; [exact (U x y z Hx Hy Nk Z)|]. exact (V w Pw Ix Iy).
  Qed.

  (** If elements are equal only if they are the same, every element which is covered by the first ones is found, or a larger one. *)
  Hypothesis key_inj : forall x y, P x -> P y -> key x = key y -> x = y.
  Definition covered_by (vec : list T) (w : T) : Prop := forall a, In a (atoms w) -> exists x, In x vec /\ incl (atoms x) (atoms w) /\ In a (atoms x).
  Definition reached (vec : list T) (w : T) : Prop := (exists y, In y vec /\ incl (atoms w) (atoms y)) \/ covered_by vec w.
  Lemma incl_or (l l' : list A) : incl l l' \/ exists a, In a l /\ ~ In a l'.
  Proof.
    induction l as [|a l IH]; [left; intros ? []|]. destruct IH as [IH|(b & H & H')]; [|right; exists b; split; [right; exact H|exact H']].
    destruct (in_dec A_dec a l') as [H|H]; [left; intros c [<-|Hc]; auto|right; exists a; split; [left; reflexivity|exact H]].
  Qed.
  Lemma round_reaches w vec new : P w -> Forall P vec -> NoDup (map key vec) -> reached vec w -> max_round eqb merger vec = Some new -> reached new w.
  Proof.
    intros Pw F N H E. assert (R := round_any key eqb merger eqb_key vec). rewrite E in R. destruct R as (mi & _ & _ & R1 & R2 & R3 & R4).
    assert (Pv : forall i x, nth_error vec i = Some x -> P x) by (intros i x X; apply (proj1 (Forall_forall P vec) F), (nth_error_In _ _ X)).
    assert (Pz : forall i j z, merges merger vec i j z -> P z) by (intros i j z (_ & x & y & X & Y & Z); exact (unite_P x y z (Pv _ _ X) (Pv _ _ Y) Z)).
    assert (Pn : forall z, In z new -> P z) by (intros z Hz; destruct (R3 z Hz) as [(i & j & M)|(i & _ & X)]; eauto).
    assert (Got : forall i j z, merges merger vec i j z -> In z new).
    { intros i j z M. destruct (R1 i j z M) as (_ & _ & z' & Hz & Ek). rewrite <- (key_inj z' z (Pn z' Hz) (Pz i j z M) Ek). exact Hz. }
    assert (Kept : forall i x, nth_error vec i = Some x -> exists y, In y new /\ incl (atoms x) (atoms y)).
    { intros i x X. destruct (in_dec Nat.eq_dec i mi) as [Hi|Hi].
      - destruct (R2 i Hi) as (j & z & [M|M]); exists z; (split; [exact (Got _ _ _ M)|]); destruct M as (_ & x1 & y1 & X1 & Y1 & Z1); assert (U := unites x1 y1 (Pv _ _ X1) (Pv _ _ Y1)); rewrite Z1 in U; intros a Ha; apply U; [left|right]; congruence.
      - destruct (R4 i x Hi X) as (x' & Hx & Ek). exists x'. split; [exact Hx|]. rewrite (key_inj x' x (Pn x' Hx) (Pv _ _ X) Ek). apply incl_refl. }
    destruct H as [(y & Hy & I)|C].
    - left. apply In_nth_error in Hy. destruct Hy as (i & Hi). destruct (Kept i y Hi) as (y' & Hy' & I'). exists y'. split; [exact Hy'|]. eapply incl_tran; eassumption.
    - assert (Cx : forall a, In a (atoms w) -> (exists y, In y new /\ incl (atoms w) (atoms y)) \/ exists z, In z new /\ incl (atoms z) (atoms w) /\ In a (atoms z)).
      { intros a Ha. destruct (C a Ha) as (x & Hx & Ix & Ax). apply In_nth_error in Hx. destruct Hx as (i & Hi). destruct (incl_or (atoms w) (atoms x)) as [I|(b & Hb & Nb)].
        - left. destruct (Kept i x Hi) as (y & Hy & I'). exists y. split; [exact Hy|]. eapply incl_tran; eassumption.
        - right. destruct (C b Hb) as (y & Hy & Iy & By). apply In_nth_error in Hy. destruct Hy as (j & Hj). assert (U := unites x y (Pv _ _ Hi) (Pv _ _ Hj)).
          destruct (merger x y) as [z|] eqn:Z; [|exfalso; exact (U w Pw Ix Iy)]. destruct U as (_ & U). exists z. split; [|split].
          + apply (Got i j z). split; [intros ->; congruence|]. exists x, y. auto.
          + intros c Hc. apply U in Hc. destruct Hc as [Hc|Hc]; [apply Ix, Hc|apply Iy, Hc].
          + apply U. left. exact Ax. }
      enough (G : forall l, incl l (atoms w) -> (exists y, In y new /\ incl (atoms w) (atoms y)) \/ forall a, In a l -> exists z, In z new /\ incl (atoms z) (atoms w) /\ In a (atoms z)).
      { destruct (G (atoms w) (incl_refl _)) as [X|X]; [left; exact X|right; exact X]. }
      induction l as [|a l IH]; intros I; [right; intros ? []|]. destruct (Cx a) as [X|X]; [apply I; left; reflexivity|left; exact X|].
      destruct IH as [Y|Y]; [intros b Hb; apply I; right; exact Hb|left; exact Y|]. right. intros b [<-|Hb]; auto.
  Qed.
  Lemma unite_finds vec k : Forall P vec -> NoDup (map key vec) ->
    exists fuel0 r, (forall fuel, fuel0 <= fuel -> maximize eqb merger ord fuel k vec = Ok r) /\ Forall P r /\ NoDup (map key r) /\
      (forall x y w, In x r -> In y r -> x <> y -> P w -> incl (atoms x) (atoms w) -> ~ incl (atoms y) (atoms w)) /\
      (forall w, P w -> covered_by vec w -> exists y, In y r /\ incl (atoms w) (atoms y)).
  Proof.
    intros F N. destruct (maximize_any key eqb merger ord P bound eqb_key O unite_P unite_grows bounded (fun v => forall w, P w -> covered_by vec w -> reached v w)) with (vec := vec) (k := k) as (f & r & E & Fr & Nr & Q & U); auto.
    - intros j v H w Pw Cw. destruct (H w Pw Cw) as [(y & Hy & I)|C].
      + left. exists y. split; [apply (Permutation_in _ (Permutation_sym (O j T v))), Hy|exact I].
      + right. intros a Ha. destruct (C a Ha) as (x & Hx & Ix). exists x. split; [apply (Permutation_in _ (Permutation_sym (O j T v))), Hx|exact Ix].
    - intros v new Fv Nv H E w Pw Cw. exact (round_reaches w v new Pw Fv Nv (H w Pw Cw) E).
    - intros w Pw Cw. right. exact Cw.
    - assert (Apart : forall x y w, In x r -> In y r -> x <> y -> P w -> incl (atoms x) (atoms w) -> ~ incl (atoms y) (atoms w)).
      { intros x y w Hx Hy Nk Pw Ix Iy. assert (Px := proj1 (Forall_forall P r) Fr x Hx). assert (Py := proj1 (Forall_forall P r) Fr y Hy). assert (V := unites x y Px Py).
        destruct (merger x y) as [z|] eqn:Z; [apply (U x y z Hx Hy); [intros Ek; apply Nk, key_inj; assumption|exact Z]|]. exact (V w Pw Ix Iy). }
      exists f, r. split; [exact E|]. split; [exact Fr|]. split; [exact Nr|]. split; [exact Apart|]. intros w Pw Cw. destruct (Q w Pw Cw) as [X|C]; [exact X|].
      destruct (atoms w) as [|a l] eqn:Ea; [exfalso; exact (some_atom w Pw Ea)|]. destruct (C a) as (x & Hx & Ix & _); [rewrite Ea; left; reflexivity|]. exists x. split; [exact Hx|]. rewrite <- Ea.
      destruct (incl_or (atoms w) (atoms x)) as [I|(b & Hb & Nb)]; [exact I|]. exfalso. destruct (C b Hb) as (y & Hy & Iy & By). apply (Apart x y w Hx Hy); auto. intros ->. contradiction.
  Qed.
  (** And nothing but largest elements, if everything is covered by the first elements. *)
  Lemma unite_largest vec k : Forall P vec -> NoDup (map key vec) -> (forall w, P w -> covered_by vec w) -> (forall x y, P x -> P y -> incl (atoms x) (atoms y) -> incl (atoms y) (atoms x) -> x = y) ->
    exists fuel0 r, (forall fuel, fuel0 <= fuel -> maximize eqb merger ord fuel k vec = Ok r) /\ NoDup r /\
      forall x, In x r <-> P x /\ forall w, P w -> incl (atoms x) (atoms w) -> w = x.
  Proof.
    intros F N C Ex. destruct (unite_finds vec k F N) as (f & r & E & Fr & Nr & Ap & Co). exists f, r. split; [exact E|]. split; [exact (NoDup_map_inv _ _ Nr)|].
    assert (Pr : forall x, In x r -> P x) by (apply Forall_forall, Fr). intros x. split.
    - intros Hx. split; [apply Pr, Hx|]. intros w Pw I. destruct (Co w Pw (C w Pw)) as (y & Hy & Iy).
      assert (Exy : x = y \/ x <> y).
      { destruct (incl_or (atoms y) (atoms x)) as [I'|(a & Ha & Na)]; [left; apply Ex; auto; eapply incl_tran; eassumption|right; intros ->; contradiction]. }
      destruct Exy as [<-|D]; [apply Ex; auto|]. exfalso. apply (Ap x y y Hx Hy D (Pr y Hy)); [eapply incl_tran; eassumption|apply incl_refl].
    - intros (Px & M). destruct (Co x Px (C x Px)) as (y & Hy & Iy). rewrite <- (M y (Pr y Hy) Iy). exact Hy.
  Qed.
End Unite.
