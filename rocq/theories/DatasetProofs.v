From Coq Require Import QArith Qminmax Qfield Permutation Sorted.
From Verif Require Import Py PyFacts XesModel HashModel EqProofs ClusterModel ClusterSpec ClusterProofs DrawModel DecodeModel DatasetModel DatasetSpec.
Close Scope Q_scope.

(** * Scaling *)

Lemma set_nth_length {A} (l : list A) : forall n x, length (set_nth l n x) = length l.
Proof. induction l as [|y l IH]; intros [|n] x; cbn; auto. Qed.
Lemma set_nth_same {A} (l : list A) : forall n x, n < length l -> nth_error (set_nth l n x) n = Some x.
Proof. induction l as [|y l IH]; intros [|n] x H; cbn in *; try lia; auto. apply IH. lia. Qed.
Lemma set_nth_other {A} (l : list A) : forall n m x, n <> m -> nth_error (set_nth l n x) m = nth_error l m.
Proof. induction l as [|y l IH]; intros [|n] [|m] x H; cbn; try reflexivity; try lia. apply IH. lia. Qed.

Lemma index_inj f i j i' j' : i < f -> i' < f -> i + j * f = i' + j' * f -> i = i' /\ j = j'.
Proof. intros H H' E. assert (j = j') by nia. subst. lia. Qed.
Lemma index_bound f n i j : i < f -> j < n -> i + j * f < n * f.
Proof. nia. Qed.

Definition num (n : nat) : Q := inject_Z (Z.of_nat n).
Lemma num_le a b : (num a <= num b)%Q <-> a <= b.
Proof. unfold num. rewrite <- Zle_Qle. lia. Qed.
Lemma num_eq a b : (num a == num b)%Q <-> a = b.
Proof. unfold num. rewrite inject_Z_injective. lia. Qed.
Lemma num_lt a b : (num a < num b)%Q <-> a < b.
Proof. unfold num. rewrite <- Zlt_Qlt. lia. Qed.
Lemma num_sub a b : b <= a -> (num a - num b == num (a - b))%Q.
Proof. intros H. unfold num. rewrite Nat2Z.inj_sub by exact H. unfold Qminus. rewrite <- inject_Z_opp, <- inject_Z_plus. reflexivity. Qed.

Lemma small_bound n : small n -> (num n < f64_max)%Q /\ (Qopp f64_max < num n)%Q.
Proof.
  unfold small, f64_max, num. intros H. split.
  - rewrite <- Zlt_Qlt. assert (2 ^ 53 < (2 ^ 53 - 1) * 2 ^ 971)%Z by (vm_compute; reflexivity). lia.
  - rewrite <- inject_Z_opp, <- Zlt_Qlt. assert (0 < (2 ^ 53 - 1) * 2 ^ 971)%Z by (vm_compute; reflexivity). lia.
Qed.

(** Bounds of a column with values [xs] found at the indices [js]. *)
Lemma bounds_loop (v : list Q) (idx : nat -> nat) : forall js xs mx mn,
  Forall2 (fun j x => nth_error v (idx j) = Some (num x)) js xs ->
  loopM (fun mm j => bind (at_index v (idx j)) (fun x => Ok (Qmax (fst mm) x, Qmin (snd mm) x))) js (mx, mn) =
  Ok (fold_left (fun m x => Qmax m (num x)) xs mx, fold_left (fun m x => Qmin m (num x)) xs mn).
Proof.
  induction js as [|j js IH]; intros xs mx mn H; inversion H as [|? x ? xs' Hx Hr]; subst; [reflexivity|].
  rewrite loopM_cons. unfold at_index at 1. rewrite Hx. cbn [bind fst snd fold_left]. apply IH. exact Hr.
Qed.
Lemma fold_max xs : forall m, let r := fold_left (fun m x => Qmax m (num x)) xs m in
  (m <= r)%Q /\ (forall x, In x xs -> (num x <= r)%Q) /\ ((r == m)%Q \/ exists x, In x xs /\ (r == num x)%Q).
Proof.
  induction xs as [|x xs IH]; intros m; cbn [fold_left]; cbv zeta.
  { split; [apply Qle_refl|]. split; [intros ? []|]. left. reflexivity. }
  specialize (IH (Qmax m (num x))). cbv zeta in IH. destruct IH as (H1 & H2 & H3).
  split; [eapply Qle_trans; [apply Q.le_max_l|exact H1]|]. split.
  - intros y [<-|Hy]; [eapply Qle_trans; [apply Q.le_max_r|exact H1]|apply H2, Hy].
  - destruct H3 as [H3|(y & Hy & H3)]; [|right; exists y; split; [right; exact Hy|exact H3]].
    destruct (Q.max_spec m (num x)) as [[_ E]|[_ E]]; [right; exists x; split; [left; reflexivity|eapply Qeq_trans; eassumption]|left; eapply Qeq_trans; eassumption].
Qed.
Lemma fold_min xs : forall m, let r := fold_left (fun m x => Qmin m (num x)) xs m in
  (r <= m)%Q /\ (forall x, In x xs -> (r <= num x)%Q) /\ ((r == m)%Q \/ exists x, In x xs /\ (r == num x)%Q).
Proof.
  induction xs as [|x xs IH]; intros m; cbn [fold_left]; cbv zeta.
  { split; [apply Qle_refl|]. split; [intros ? []|]. left. reflexivity. }
  specialize (IH (Qmin m (num x))). cbv zeta in IH. destruct IH as (H1 & H2 & H3).
  split; [eapply Qle_trans; [exact H1|apply Q.le_min_l]|]. split.
  - intros y [<-|Hy]; [eapply Qle_trans; [exact H1|apply Q.le_min_r]|apply H2, Hy].
  - destruct H3 as [H3|(y & Hy & H3)]; [|right; exists y; split; [right; exact Hy|exact H3]].
    destruct (Q.min_spec m (num x)) as [[_ E]|[_ E]]; [left; eapply Qeq_trans; eassumption|right; exists x; split; [left; reflexivity|eapply Qeq_trans; eassumption]].
Qed.
Lemma column_extremes xs : xs <> [] -> (forall x, In x xs -> small x) ->
  exists lo hi, In lo xs /\ In hi xs /\ (forall y, In y xs -> lo <= y <= hi) /\
  (fold_left (fun m x => Qmax m (num x)) xs (Qopp f64_max) == num hi)%Q /\ (fold_left (fun m x => Qmin m (num x)) xs f64_max == num lo)%Q.
Proof.
  intros Hne Hs. destruct (fold_max xs (Qopp f64_max)) as (_ & M2 & M3). destruct (fold_min xs f64_max) as (_ & N2 & N3). cbv zeta in *.
  destruct xs as [|x0 xs']; [congruence|]. set (xs := x0 :: xs') in *. assert (Hx0 : In x0 xs) by (left; reflexivity).
  destruct (small_bound x0 (Hs x0 Hx0)) as [B1 B2].
  destruct M3 as [M3|(hi & Hhi & M3)]; [exfalso; specialize (M2 x0 Hx0); rewrite M3 in M2; apply (Qlt_not_le _ _ B2 M2)|].
  destruct N3 as [N3|(lo & Hlo & N3)]; [exfalso; specialize (N2 x0 Hx0); rewrite N3 in N2; apply (Qlt_not_le _ _ B1 N2)|].
  exists lo, hi. split; [exact Hlo|]. split; [exact Hhi|]. split; [|split; assumption].
  intros y Hy. split; apply num_le; [rewrite <- N3; apply N2, Hy|rewrite <- M3; apply M2, Hy].
Qed.

(** Writing a column. *)
Lemma write_loop (g : Q -> Q) (idx : nat -> nat) : forall js v, NoDup (map idx js) -> (forall j, In j js -> idx j < length v) ->
  exists v', loopM (fun v j => bind (at_index v (idx j)) (fun x => Ok (set_nth v (idx j) (g x)))) js v = Ok v' /\ length v' = length v /\
  (forall j, In j js -> exists x, nth_error v (idx j) = Some x /\ nth_error v' (idx j) = Some (g x)) /\
  (forall k, ~ In k (map idx js) -> nth_error v' k = nth_error v k).
Proof.
  induction js as [|j js IH]; intros v Hn Hb.
  - exists v. split; [reflexivity|]. split; [reflexivity|]. split; [intros ? []|auto].
  - cbn [map] in Hn. inversion Hn as [|? ? Hj Hn']; subst. rewrite loopM_cons. unfold at_index at 1.
    destruct (nth_error v (idx j)) as [x|] eqn:E; [|apply nth_error_None in E; specialize (Hb j (or_introl eq_refl)); lia]. cbn [bind].
    destruct (IH (set_nth v (idx j) (g x)) Hn') as (v' & H1 & H2 & H3 & H4). { intros j' Hj'. rewrite set_nth_length. apply Hb. right. exact Hj'. }
    exists v'. split; [exact H1|]. split; [rewrite H2; apply set_nth_length|]. split.
    + intros j' [<-|Hj'].
      * exists x. split; [exact E|]. rewrite (H4 _ Hj). apply set_nth_same. apply Hb. left. reflexivity.
      * destruct (H3 j' Hj') as (y & Y1 & Y2). exists y. split; [|exact Y2]. rewrite set_nth_other in Y1; [exact Y1|].
        intros X. apply Hj. rewrite X. apply in_map. exact Hj'.
    + intros k Hk. cbn [map In] in Hk. rewrite H4 by tauto. apply set_nth_other. tauto.
Qed.

Section Scale.
  Variable table : list (list nat).
  Variable f : nat.
  Hypothesis Hrect : forall r, In r table -> length r = f.
  Hypothesis Hsmall : forall r x, In r table -> In x r -> small x.
  Let n := length table.
  Definition cell_at (j i : nat) : nat := nth i (nth j table []) 0.
  Definition col_at (i : nat) : list nat := map (fun r => nth i r 0) table.

  Lemma raw_entry : forall j i, j < n -> i < f -> nth_error (flat_map (map num) table) (i + j * f) = Some (num (cell_at j i)).
  Proof.
    unfold cell_at, n. clear Hsmall. induction table as [|r t IH]; intros j i Hj Hi; [cbn in Hj; lia|]. cbn [flat_map].
    assert (Hr : length r = f) by (apply Hrect; left; reflexivity).
    destruct j as [|j].
    - rewrite nth_error_app1 by (rewrite map_length; lia). cbn [nth]. rewrite Nat.add_0_r. rewrite (map_nth_error num i r (d := nth i r 0)); [reflexivity|].
      apply nth_error_nth'. lia.
    - rewrite nth_error_app2 by (rewrite map_length; nia). rewrite map_length. replace (i + S j * f - length r) with (i + j * f) by nia.
      cbn [nth]. apply IH; [intros r' Hr'; apply Hrect; right; exact Hr'|cbn in Hj; lia|exact Hi].
  Qed.
  Lemma raw_length : length (flat_map (map num) table) = n * f.
  Proof.
    unfold n. clear Hsmall. induction table as [|r t IH]; [reflexivity|]. cbn [flat_map length]. rewrite app_length, map_length, IH by (intros r' Hr'; apply Hrect; right; exact Hr').
    rewrite (Hrect r (or_introl eq_refl)). lia.
  Qed.

  Definition done (k : nat) (v : list Q) : Prop :=
    length v = n * f /\
    forall j i, j < n -> i < f ->
      (i < k -> exists q, nth_error v (i + j * f) = Some q /\ scaled (col_at i) (cell_at j i) q) /\
      (k <= i -> nth_error v (i + j * f) = Some (num (cell_at j i))).

  Lemma scale_column_done k v : k < f -> done k v -> exists v', scale_column n f v k = Ok v' /\ done (S k) v'.
  Proof.
    intros Hk [Hl Hd]. unfold scale_column, column_bounds.
    assert (Hcol : Forall2 (fun j x => nth_error v (k + j * f) = Some (num x)) (seq 0 n) (col_at k)).
    { unfold col_at. assert (E : map (fun r => nth k r 0) table = map (fun j => cell_at j k) (seq 0 n)).
      { unfold cell_at, n. clear. induction table as [|r t IH]; [reflexivity|]. cbn [length seq map nth]. f_equal. rewrite <- seq_shift, map_map. exact IH. }
      rewrite E. clear E. assert (H : forall j, In j (seq 0 n) -> j < n) by (intros j Hj; apply in_seq in Hj; lia).
      induction (seq 0 n) as [|j js IH]; cbn [map]; constructor.
      - apply Hd; [apply H; left; reflexivity|exact Hk|lia].
      - apply IH. intros j' Hj'. apply H. right. exact Hj'. }
    rewrite (bounds_loop v (fun j => k + j * f) _ _ _ _ Hcol). cbn [bind].
    set (mx := fold_left _ (col_at k) (Qopp f64_max)). set (mn := fold_left _ (col_at k) f64_max).
    destruct (write_loop (fun x => if Qeq_bool mx mn then 1 else (x - mn) / (mx - mn))%Q (fun j => k + j * f) (seq 0 n) v) as (v' & W1 & W2 & W3 & W4).
    { assert (N := seq_NoDup n 0). clear -N Hk. induction N as [|j js Hj N IH]; cbn [map]; constructor; [|exact IH].
      rewrite in_map_iff. intros (j' & E & Hj'). apply (index_inj f) in E; try assumption. destruct E as [_ ->]. contradiction. }
    { intros j Hj. apply in_seq in Hj. rewrite Hl. apply index_bound; lia. }
    exists v'. split; [exact W1|]. split; [congruence|]. intros j i Hj Hi. split.
    - intros Hik. destruct (Nat.eq_dec i k) as [->|Hne].
      + destruct (W3 j) as (x & X1 & X2); [apply in_seq; lia|]. rewrite (proj2 (Hd j k Hj Hi) (le_n k)) in X1. injection X1 as <-.
        eexists. split; [exact X2|].
        assert (Hin : forall j', j' < n -> In (cell_at j' k) (col_at k)).
        { intros j' Hj'. unfold cell_at, col_at. apply in_map_iff. exists (nth j' table []). split; [reflexivity|]. apply nth_In. exact Hj'. }
        destruct (column_extremes (col_at k)) as (lo & hi & L1 & L2 & L3 & L4 & L5).
        { intros X. specialize (Hin j Hj). rewrite X in Hin. destruct Hin. }
        { intros x Hx. unfold col_at in Hx. apply in_map_iff in Hx. destruct Hx as (r & <- & Hr). eapply Hsmall; [exact Hr|]. apply nth_In. rewrite (Hrect r Hr). exact Hk. }
        fold mx in L4. fold mn in L5. destruct (Qeq_bool mx mn) eqn:E.
        * left. split; [|reflexivity]. apply Qeq_bool_iff in E. rewrite L4, L5 in E. apply num_eq in E. subst hi.
          intros y Hy. pose proof (L3 y Hy). pose proof (L3 _ (Hin j Hj)). lia.
        * right. exists lo, hi. assert (lo <> hi). { intros ->. apply Qeq_bool_neq in E. apply E. rewrite L4, L5. reflexivity. }
          split; [exact L1|]. split; [exact L2|]. split; [exact L3|]. pose proof (L3 lo L1). split; [lia|].
          rewrite L4, L5. fold (num (cell_at j k - lo)) (num (hi - lo)). rewrite <- (num_sub (cell_at j k) lo) by (apply L3, Hin, Hj). rewrite <- (num_sub hi lo) by lia. reflexivity.
      + rewrite W4; [apply Hd; try assumption; lia|]. rewrite in_map_iff. intros (j' & E & _). apply (index_inj f) in E; lia.
    - intros Hik. rewrite W4; [apply Hd; try assumption; lia|]. rewrite in_map_iff. intros (j' & E & _). apply (index_inj f) in E; lia.
  Qed.

  Lemma scale_proof : exists v, scale_raw (flat_map (map num) table) n f = Ok v /\ done f v.
  Proof.
    unfold scale_raw. assert (D : done 0 (flat_map (map num) table)).
    { split; [apply raw_length|]. intros j i Hj Hi. split; [lia|]. intros _. apply raw_entry; assumption. }
    assert (G : forall m k v, k + m = f -> done k v -> exists v', loopM (scale_column n f) (seq k m) v = Ok v' /\ done f v').
    { induction m as [|m IH]; intros k v Hk Hd.
      - exists v. split; [reflexivity|]. replace f with k by lia. exact Hd.
      - cbn [seq]. rewrite loopM_cons. destruct (scale_column_done k v ltac:(lia) Hd) as (v' & -> & Hd'). cbn [bind]. apply IH; [lia|exact Hd']. }
    apply (G f 0); [lia|exact D].
  Qed.

  Lemma nth_error_firstn_skipn {A} (v : list A) : forall i k m, i < m -> nth_error (firstn m (skipn k v)) i = nth_error v (i + k).
  Proof.
    intros i k m H. assert (E : forall (l : list A) i m, i < m -> nth_error (firstn m l) i = nth_error l i).
    { induction l as [|x l IH]; intros [|i'] [|m'] Hm; cbn; try reflexivity; try lia. apply IH. lia. }
    rewrite E by exact H. clear. revert i v. induction k as [|k IH]; intros i v; [rewrite Nat.add_0_r; reflexivity|].
    destruct v as [|x v]; cbn [skipn]; [destruct i; reflexivity|]. rewrite IH. rewrite Nat.add_succ_r. reflexivity.
  Qed.

  Lemma shaped_proof : exists m, bind (scale_raw (flat_map (map num) table) n f) (fun v => from_shape n f v) = Ok m /\ length m = n /\
    forall j r row, nth_error table j = Some r -> nth_error m j = Some row ->
      length row = f /\ forall i q, nth_error row i = Some q -> scaled (col_at i) (nth i r 0) q.
  Proof.
    destruct scale_proof as (v & -> & Hl & Hd). cbn [bind]. unfold from_shape. rewrite Hl, Nat.eqb_refl. eexists. split; [reflexivity|].
    split; [rewrite map_length, seq_length; reflexivity|]. intros j r row Hr Hrow.
    assert (Hj : j < n) by (apply nth_error_Some; congruence).
    rewrite (map_nth_error _ j (seq 0 n) (d := j)) in Hrow. 2:{ rewrite (nth_error_nth' _ 0) by (rewrite seq_length; exact Hj). rewrite seq_nth by exact Hj. reflexivity. }
    injection Hrow as <-. split.
    - rewrite firstn_length, skipn_length, Hl. nia.
    - intros i q Hq. assert (Hi : i < f). { assert (X : i < length (firstn f (skipn (j * f) v))) by (apply nth_error_Some; congruence). rewrite firstn_length in X. lia. }
      rewrite nth_error_firstn_skipn in Hq by exact Hi. destruct (proj1 (Hd j i Hj Hi) Hi) as (q' & Q1 & Q2). assert (q' = q) by congruence. subst q'.
      unfold cell_at in Q2. rewrite (nth_error_nth table j [] Hr) in Q2. exact Q2.
  Qed.
End Scale.

(** * Tables *)

Lemma scaled_same column x y q r : In x column -> In y column -> scaled column x q -> scaled column y r -> ((q == r)%Q <-> x = y).
Proof.
  intros Hx Hy [[C1 Q1]|(lo & hi & L1 & L2 & L3 & L4 & Q1)] [[C2 Q2]|(lo' & hi' & M1 & M2 & M3 & M4 & Q2)].
  - split; [intros _; symmetry; apply C1, Hy|intros _; rewrite Q1, Q2; reflexivity].
  - exfalso. pose proof (C1 _ M1). pose proof (C1 _ M2). lia.
  - exfalso. pose proof (C2 _ L1). pose proof (C2 _ L2). lia.
  - assert (lo' = lo) by (pose proof (L3 _ M1); pose proof (M3 _ L1); lia). assert (hi' = hi) by (pose proof (L3 _ M2); pose proof (M3 _ L2); lia). subst.
    rewrite Q1, Q2. fold (num (x - lo)) (num (y - lo)) (num (hi - lo)). pose proof (L3 _ Hx). pose proof (L3 _ Hy).
    assert (P : ~ (num (hi - lo) == 0)%Q). { change 0%Q with (num 0). rewrite num_eq. lia. }
    split.
    + intros E. assert (E' : (num (x - lo) == num (y - lo))%Q).
      { rewrite <- (Qmult_1_r (num (x - lo))), <- (Qmult_1_r (num (y - lo))). rewrite <- (Qmult_inv_r _ P). unfold Qdiv in E.
        rewrite (Qmult_comm (num (hi - lo))). rewrite !Qmult_assoc. rewrite E. reflexivity. }
      apply num_eq in E'. lia.
    + intros ->. reflexivity.
Qed.
Lemma scaled_unit column x q : In x column -> scaled column x q -> (0 <= q <= 1)%Q.
Proof.
  intros Hx [[_ Q1]|(lo & hi & L1 & L2 & L3 & L4 & Q1)].
  - rewrite Q1. split; [discriminate|apply Qle_refl].
  - rewrite Q1. fold (num (x - lo)) (num (hi - lo)). pose proof (L3 _ Hx). assert (P : (0 < num (hi - lo))%Q) by (change 0%Q with (num 0); apply num_lt; lia). split.
    + apply Qle_shift_div_l; [exact P|]. rewrite Qmult_0_l. change 0%Q with (num 0). apply num_le. lia.
    + apply Qle_shift_div_r; [exact P|]. rewrite Qmult_1_l. apply num_le. lia.
Qed.

Lemma F2_nth {A B} (R : A -> B -> Prop) l1 : forall l2, length l1 = length l2 -> (forall i a b, nth_error l1 i = Some a -> nth_error l2 i = Some b -> R a b) -> Forall2 R l1 l2.
Proof.
  induction l1 as [|x l1 IH]; intros [|y l2] Hl H; try discriminate; constructor.
  - apply (H 0); reflexivity.
  - apply IH; [cbn in Hl; congruence|]. intros i a b Ha Hb. apply (H (S i)); assumption.
Qed.
Lemma F2_at {A B} (R : A -> B -> Prop) l1 l2 : Forall2 R l1 l2 -> forall i a b, nth_error l1 i = Some a -> nth_error l2 i = Some b -> R a b.
Proof. induction 1; intros [|i] a b Ha Hb; try discriminate; cbn in Ha, Hb; [congruence|eauto]. Qed.

Lemma tab_same_proof {O} (objects : list O) occurs number d i j o o' r s :
  tabulates objects occurs number d -> nth_error objects i = Some o -> nth_error objects j = Some o' ->
  nth_error (da_values d) i = Some r -> nth_error (da_values d) j = Some s ->
  (same_row r s <-> forall c, occurs c -> number o c = number o' c).
Proof.
  intros (Hc & _ & _ & H) Ho Ho' Hr Hs. pose proof (H _ _ _ Ho Hr) as Fr. pose proof (H _ _ _ Ho' Hs) as Fs. unfold same_row.
  assert (Hin : forall x k c, nth_error objects k = Some x -> In (number x c) (map (fun x' => number x' c) objects)).
  { intros x k c Hx. apply in_map_iff. exists x. split; [reflexivity|]. eapply nth_error_In. exact Hx. }
  split.
  - intros E c Hoc. apply Hc in Hoc. apply In_nth_error in Hoc. destruct Hoc as [k Hk].
    assert (Hkl : k < length (da_columns d)) by (apply nth_error_Some; congruence).
    destruct (nth_error r k) as [q|] eqn:Eq. 2:{ apply nth_error_None in Eq. apply F2_length in Fr. lia. }
    destruct (nth_error s k) as [q'|] eqn:Eq'. 2:{ apply nth_error_None in Eq'. apply F2_length in Fs. lia. }
    eapply scaled_same; [eapply Hin; exact Ho|eapply Hin; exact Ho'|eapply F2_at in Fr; eauto|eapply F2_at in Fs; eauto|]. eapply F2_at; eassumption.
  - intros E. apply F2_nth; [apply F2_length in Fr; apply F2_length in Fs; congruence|]. intros k q q' Hq Hq'.
    destruct (nth_error (da_columns d) k) as [c|] eqn:Ec. 2:{ apply nth_error_None in Ec. apply F2_length in Fr. assert (k < length r) by (apply nth_error_Some; congruence). lia. }
    eapply scaled_same; [eapply (Hin o); exact Ho|eapply (Hin o'); exact Ho'|eapply F2_at in Fr; eauto|eapply F2_at in Fs; eauto|].
    apply E, Hc. eapply nth_error_In. exact Ec.
Qed.
Lemma tab_unit_proof {O} (objects : list O) occurs number d row q :
  tabulates objects occurs number d -> In row (da_values d) -> In q row -> (0 <= q <= 1)%Q.
Proof.
  intros (Hc & _ & Hl & H) Hrow Hq. apply In_nth_error in Hrow. destruct Hrow as [i Hi].
  destruct (nth_error objects i) as [o|] eqn:Eo. 2:{ apply nth_error_None in Eo. assert (i < length (da_values d)) by (apply nth_error_Some; congruence). lia. }
  pose proof (H _ _ _ Eo Hi) as F. apply In_nth_error in Hq. destruct Hq as [k Hk].
  destruct (nth_error (da_columns d) k) as [c|] eqn:Ec. 2:{ apply nth_error_None in Ec. apply F2_length in F. assert (k < length row) by (apply nth_error_Some; congruence). lia. }
  pose proof (F2_at _ _ _ F k c q Ec Hk) as S. eapply scaled_unit; [|exact S]. apply in_map_iff. exists o. split; [reflexivity|]. eapply nth_error_In. exact Eo.
Qed.

Lemma count_get l : forall d c, dget str_eq_dec (fold_left (fun d c => dset str_eq_dec d c (S (match dget str_eq_dec d c with Some n => n | None => 0 end))) l d) c =
  match dget str_eq_dec d c, count_occ str_eq_dec l c with Some n, m => Some (m + n) | None, O => None | None, m => Some m end.
Proof.
  induction l as [|x l IH]; intros d c; cbn [fold_left count_occ]; [destruct (dget str_eq_dec d c); reflexivity|].
  rewrite IH, dget_dset. destruct (str_eq_dec x c) as [->|n]; [|reflexivity].
  destruct (dget str_eq_dec d c); f_equal; lia.
Qed.
Lemma count_value l c : match dget str_eq_dec (count_classes l) c with Some n => n | None => 0 end = count_occ str_eq_dec l c.
Proof. unfold count_classes. rewrite count_get. cbn [dget]. destruct (count_occ str_eq_dec l c); reflexivity. Qed.
Lemma count_keys l c : In c (dkeys (count_classes l)) <-> In c l.
Proof.
  rewrite (dget_Some_key str_eq_dec). unfold count_classes. rewrite count_get. cbn [dget]. rewrite (count_occ_In str_eq_dec).
  destruct (count_occ str_eq_dec l c); split; try lia; try (intros [v X]; discriminate); eauto.
Qed.

Section Sorted.
  Variable order : list pystr -> list pystr.
  Hypothesis Horder : forall l, Permutation (order l) l.
  Lemma sort_order l : sort_strs (order l) = sort_strs l.
  Proof. apply sort_strs_perm_eq, Horder. Qed.
  Lemma strict_sorted l : NoDup l -> StronglySorted (fun a b => str_leb a b = true /\ a <> b) (sort_strs l).
  Proof.
    intros H. assert (N : NoDup (sort_strs l)) by (eapply Permutation_NoDup; [apply sort_strs_perm|exact H]).
    pose proof (sort_strs_sorted l) as S. clear -N S. induction S as [|x r S IH F]; constructor; inversion N as [|? ? Hx Hn]; subst; [apply IH; assumption|].
    rewrite Forall_forall in *. intros y Hy. split; [apply F, Hy|]. intros ->. contradiction.
  Qed.
  Lemma sorted_classes_In l c : In c (sorted_classes order l) <-> In c l.
  Proof.
    unfold sorted_classes. rewrite sort_order. rewrite <- (nodup_In str_eq_dec l c). split; apply Permutation_in; [symmetry|]; apply sort_strs_perm.
  Qed.
  Lemma sorted_classes_sorted l : StronglySorted (fun a b => str_leb a b = true /\ a <> b) (sorted_classes order l).
  Proof. unfold sorted_classes. rewrite sort_order. apply strict_sorted, NoDup_nodup. Qed.
End Sorted.

(** A table of counts becomes a dataset that tabulates them. *)
Lemma tabulate_proof {O} (objects : list O) (occurs : pystr -> Prop) (number : O -> pystr -> nat) (counts : O -> dict pystr nat) classes rows :
  (forall c, In c classes <-> occurs c) -> StronglySorted (fun a b => str_leb a b = true /\ a <> b) classes ->
  (forall o c, In o objects -> small (number o c) /\ match dget str_eq_dec (counts o) c with Some n => n | None => 0 end = number o c) ->
  exists m, bind (scale_raw (flat_map (fun o => counts_row classes (counts o)) objects) (length objects) (length classes)) (fun v => from_shape (length objects) (length classes) v) = Ok m /\
    tabulates objects occurs number (mkData m rows classes).
Proof.
  intros Hc Hs Hn. set (table := map (fun o => map (number o) classes) objects).
  assert (E : flat_map (fun o => counts_row classes (counts o)) objects = flat_map (map num) table).
  { unfold table. assert (forall o c, In o objects -> match dget str_eq_dec (counts o) c with Some n => n | None => 0 end = number o c) as Hn' by (intros o c Ho; apply Hn, Ho).
    clear -Hn'. induction objects as [|o os IH]; [reflexivity|]. cbn [flat_map map]. rewrite IH by (intros o' c Ho'; apply Hn'; right; exact Ho'). f_equal.
    unfold counts_row. rewrite map_map. apply map_ext. intros c. rewrite Hn' by (left; reflexivity). reflexivity. }
  assert (Et : length table = length objects) by apply map_length.
  destruct (shaped_proof table (length classes)) as (m & Hm & Hl & Hrow).
  - intros r Hr. unfold table in Hr. apply in_map_iff in Hr. destruct Hr as (o & <- & _). apply map_length.
  - intros r x Hr Hx. unfold table in Hr. apply in_map_iff in Hr. destruct Hr as (o & <- & Ho). apply in_map_iff in Hx. destruct Hx as (c & <- & _). apply Hn, Ho.
  - rewrite Et in Hm. exists m. rewrite E. split; [exact Hm|]. split; [exact Hc|]. split; [exact Hs|]. cbn [da_values da_columns]. split; [congruence|].
    intros i o row Ho Hi. destruct (Hrow i (map (number o) classes) row) as (R1 & R2); [exact (map_nth_error (fun o => map (number o) classes) i objects Ho)|exact Hi|].
    apply F2_nth; [congruence|]. intros k c q Hk Hq. specialize (R2 k q Hq).
    assert (Ek : nth k (map (number o) classes) 0 = number o c) by (apply nth_error_nth; apply map_nth_error; exact Hk). rewrite Ek in R2.
    assert (Ec : col_at table k = map (fun o' => number o' c) objects); [|rewrite Ec in R2; exact R2].
    unfold col_at, table. rewrite map_map. apply map_ext. intros o'. apply nth_error_nth. apply map_nth_error. exact Hk.
Qed.

(** * Datasets of traces *)

Section Traces.
  Variable find_match : option (pystr -> option (nat * nat)).
  Variable order : list pystr -> list pystr.
  Hypothesis Horder : forall l, Permutation (order l) l.
  Let classes_of src t := map (class_of find_match) (trace_representation src t).

  Lemma default_proof log src : (forall t, In t log -> small (length (trace_representation src t))) ->
    exists d, traces_dataset_default find_match order log src = Ok d /\ da_rows d = numbered "Trace_" (length log) /\
      tabulates log (fun c => exists t, In t log /\ In c (classes_of src t)) (fun t c => count_occ str_eq_dec (classes_of src t) c) d.
  Proof.
    intros Hs. unfold traces_dataset_default. cbv zeta. fold (classes_of src). change (map (fun t => map (class_of find_match) (trace_representation src t)) log) with (map (classes_of src) log).
    rewrite map_length. set (classes := sorted_classes order (concat (map (classes_of src) log))).
    assert (F : flat_map (fun t => counts_row classes (count_classes t)) (map (classes_of src) log) = flat_map (fun t => counts_row classes (count_classes (classes_of src t))) log).
    { rewrite !flat_map_concat_map, map_map. reflexivity. }
    rewrite F.
    destruct (tabulate_proof log (fun c => exists t, In t log /\ In c (classes_of src t)) (fun t c => count_occ str_eq_dec (classes_of src t) c) (fun t => count_classes (classes_of src t)) classes (numbered "Trace_" (length log))) as (m & Hm & Ht).
    - intros c. unfold classes. rewrite (sorted_classes_In order Horder), in_concat. split.
      + intros (l & Hl & Hc). apply in_map_iff in Hl. destruct Hl as (t & <- & Ht). eauto.
      + intros (t & Ht & Hc). exists (classes_of src t). split; [apply in_map; exact Ht|exact Hc].
    - apply sorted_classes_sorted. exact Horder.
    - intros t c Ht. split; [|apply count_value]. specialize (Hs t Ht). unfold small in *. assert (count_occ str_eq_dec (classes_of src t) c <= length (classes_of src t)) by apply count_occ_bound.
      unfold classes_of in *. rewrite map_length in H. lia.
    - destruct (scale_raw _ _ _) as [v|]; [|discriminate]. cbn [bind] in Hm |- *. rewrite Hm. cbn [bind]. eexists. split; [reflexivity|]. split; [reflexivity|exact Ht].
  Qed.
  Lemma default_rows_proof log src d i j t u r s : (forall t, In t log -> small (length (trace_representation src t))) ->
    traces_dataset_default find_match order log src = Ok d ->
    nth_error log i = Some t -> nth_error log j = Some u -> nth_error (da_values d) i = Some r -> nth_error (da_values d) j = Some s ->
    (same_row r s <-> Permutation (classes_of src t) (classes_of src u)).
  Proof.
    intros Hs Hd Ht Hu Hr Hs'. destruct (default_proof log src Hs) as (d' & Hd' & _ & T). assert (d' = d) by congruence. subst d'.
    rewrite (tab_same_proof _ _ _ _ _ _ _ _ _ _ T Ht Hu Hr Hs'). split.
    - intros H. apply (Permutation_count_occ str_eq_dec). intros c. destruct (in_dec str_eq_dec c (classes_of src t)) as [Hc|Hc].
      + apply H. exists t. split; [eapply nth_error_In; exact Ht|exact Hc].
      + destruct (in_dec str_eq_dec c (classes_of src u)) as [Hc'|Hc'].
        * apply H. exists u. split; [eapply nth_error_In; exact Hu|exact Hc'].
        * rewrite (proj1 (count_occ_not_In str_eq_dec _ _) Hc), (proj1 (count_occ_not_In str_eq_dec _ _) Hc'). reflexivity.
    - intros H c _. apply (Permutation_count_occ str_eq_dec). exact H.
  Qed.

  (** ** For the Levenshtein distance *)
  Definition codes_ok (d : dict pystr N) : Prop :=
    (forall c n, dget str_eq_dec d c = Some n -> (1 <= n <= N.of_nat (length d))%N) /\
    (forall c c' n, dget str_eq_dec d c = Some n -> dget str_eq_dec d c' = Some n -> c = c').
  Lemma dset_new_length {V} (d : dict pystr V) c v : dget str_eq_dec d c = None -> length (dset str_eq_dec d c v) = S (length d).
  Proof. induction d as [|[k w] d IH]; cbn; [reflexivity|]. destruct (str_eq_dec c k); [discriminate|]. intros H. cbn. rewrite IH by exact H. reflexivity. Qed.
  Lemma codes_fold l : forall d, codes_ok d ->
    let d' := fold_left (fun d c => if dmem str_eq_dec d c then d else dset str_eq_dec d c (N.of_nat (S (length d)))) l d in
    codes_ok d' /\ (forall c n, dget str_eq_dec d c = Some n -> dget str_eq_dec d' c = Some n) /\ forall c, In c l -> exists n, dget str_eq_dec d' c = Some n.
  Proof.
    induction l as [|x l IH]; intros d Hd; cbn [fold_left]; cbv zeta; [split; [exact Hd|split; [auto|intros ? []]]|].
    destruct (dmem str_eq_dec d x) eqn:M.
    - destruct (IH d Hd) as (H1 & H2 & H3). split; [exact H1|]. split; [exact H2|]. intros c [<-|Hc]; [|apply H3, Hc].
      unfold dmem in M. destruct (dget str_eq_dec d x) as [n|] eqn:G; [|discriminate]. eauto.
    - assert (G : dget str_eq_dec d x = None) by (unfold dmem in M; destruct (dget str_eq_dec d x); congruence).
      destruct (IH (dset str_eq_dec d x (N.of_nat (S (length d))))) as (H1 & H2 & H3).
      { destruct Hd as [D1 D2]. split.
        - intros c n Hc. rewrite dset_new_length by exact G. rewrite dget_dset in Hc. destruct (str_eq_dec x c); [injection Hc as <-; lia|]. specialize (D1 c n Hc). lia.
        - intros c c' n Hc Hc'. rewrite dget_dset in Hc, Hc'. destruct (str_eq_dec x c) as [<-|], (str_eq_dec x c') as [<-|]; auto.
          + injection Hc as <-. specialize (D1 _ _ Hc'). lia.
          + injection Hc' as <-. specialize (D1 _ _ Hc). lia.
          + eapply D2; eassumption. }
      split; [exact H1|]. split.
      + intros c n Hc. apply H2. rewrite dget_dset. destruct (str_eq_dec x c); [congruence|exact Hc].
      + intros c [<-|Hc]; [|apply H3, Hc]. eexists. apply H2. apply dget_dset_same.
  Qed.

  Lemma max_fold l : forall m, let r := fold_left (fun m (t : list pystr) => Nat.max m (length t + 1)) l m in m <= r /\ forall t, In t l -> length t + 1 <= r.
  Proof.
    induction l as [|t l IH]; intros m; cbn [fold_left]; cbv zeta; [split; [lia|intros ? []]|].
    destruct (IH (Nat.max m (length t + 1))) as [H1 H2]. split; [lia|]. intros u [<-|Hu]; [lia|apply H2, Hu].
  Qed.
  Lemma max_fold_reached l : forall m, let r := fold_left (fun m (t : list pystr) => Nat.max m (length t + 1)) l m in r = m \/ exists t, In t l /\ r = length t + 1.
  Proof.
    induction l as [|t l IH]; intros m; cbn [fold_left]; cbv zeta; [left; reflexivity|].
    destruct (IH (Nat.max m (length t + 1))) as [H|(u & Hu & H)]; [|right; exists u; split; [right; exact Hu|exact H]].
    rewrite H. destruct (Nat.max_spec m (length t + 1)) as [[_ ->]|[_ ->]]; [right; exists t; split; [left; reflexivity|reflexivity]|left; reflexivity].
  Qed.

  Lemma from_shape_rows {A} (rows : list (list A)) f : (forall r, In r rows -> length r = f) -> from_shape (length rows) f (concat rows) = Ok rows.
  Proof.
    intros H. unfold from_shape. assert (L : length (concat rows) = length rows * f).
    { clear -H. induction rows as [|r rows IH]; [reflexivity|]. cbn. rewrite app_length, IH by (intros r' Hr'; apply H; right; exact Hr'). rewrite (H r (or_introl eq_refl)). lia. }
    rewrite L, Nat.eqb_refl. f_equal. clear L. induction rows as [|r rows IH]; [reflexivity|]. cbn [length seq map concat].
    assert (Hr : length r = f) by (apply H; left; reflexivity). rewrite Nat.mul_0_l. cbn [skipn]. f_equal.
    - rewrite firstn_app, Hr, Nat.sub_diag. cbn [firstn]. rewrite app_nil_r. apply firstn_all2. lia.
    - rewrite <- seq_shift, map_map. rewrite <- (IH (fun r' Hr' => H r' (or_intror Hr'))) at 2. apply map_ext. intros j. f_equal.
      rewrite skipn_app, Hr. rewrite skipn_all2 by (rewrite Hr; nia). cbn [app]. f_equal. nia.
  Qed.

  Lemma levenshtein_proof log src :
    exists d code len, traces_dataset_levenshtein find_match log src = Ok d /\ da_rows d = numbered "Trace_" (length log) /\ da_columns d = numbered "Symbol_" len /\
      (forall t, In t log -> length (trace_representation src t) < len) /\
      (forall c c', (exists t, In t log /\ In c (classes_of src t)) -> (exists t, In t log /\ In c' (classes_of src t)) -> code c = code c' -> c = c') /\
      (forall c, (exists t, In t log /\ In c (classes_of src t)) -> code c <> 0%N) /\
      da_values d = map (fun t => map code (classes_of src t) ++ repeat 0%N (len - length (classes_of src t))) log.
  Proof.
    unfold traces_dataset_levenshtein. cbv zeta. change (map (fun t => map (class_of find_match) (trace_representation src t)) log) with (map (classes_of src) log).
    set (processed := map (classes_of src) log). set (len := fold_left _ processed 0). set (codes := class_codes (concat processed)).
    destruct (max_fold processed 0) as [_ Hlen]. fold len in Hlen.
    destruct (codes_fold (concat processed) []) as ((C1 & C2) & _ & C3). { split; [intros ? ? H; discriminate|intros ? ? ? H; discriminate]. }
    change (fold_left _ (concat processed) []) with codes in C1, C2, C3.
    set (code := fun c => match dget str_eq_dec codes c with Some n => n | None => 0%N end).
    assert (Hocc : forall c, (exists t, In t log /\ In c (classes_of src t)) -> exists n, dget str_eq_dec codes c = Some n).
    { intros c (t & Ht & Hc). apply C3. apply in_concat. exists (classes_of src t). split; [unfold processed; apply in_map; exact Ht|exact Hc]. }
    assert (M : mapM (fun t => bind (mapM (fun c => match dget str_eq_dec codes c with Some n => Ok n | None => Err AssertionErr end) t) (fun row => Ok (row ++ repeat 0%N (len - length t)))) processed =
      Ok (map (fun t => map code t ++ repeat 0%N (len - length t)) processed)).
    { assert (Hp : forall t c, In t processed -> In c t -> exists n, dget str_eq_dec codes c = Some n).
      { intros t c Ht Hc. apply C3. apply in_concat. eauto. }
      clearbody len codes. clear -Hp. induction processed as [|t p IH]; [reflexivity|]. cbn [mapM map].
      assert (Mt : mapM (fun c => match dget str_eq_dec codes c with Some n => Ok n | None => Err AssertionErr end) t = Ok (map code t)).
      { assert (Ht : forall c, In c t -> exists n, dget str_eq_dec codes c = Some n) by (intros c Hc; eapply Hp; [left; reflexivity|exact Hc]). clear -Ht.
        induction t as [|c t IH]; [reflexivity|]. cbn [mapM map]. destruct (Ht c (or_introl eq_refl)) as [n Hn]. unfold code at 1. rewrite Hn. cbn [bind].
        rewrite IH by (intros c' Hc'; apply Ht; right; exact Hc'). reflexivity. }
      rewrite Mt. cbn [bind]. rewrite IH by (intros t' c Ht' Hc; eapply Hp; [right; exact Ht'|exact Hc]). reflexivity. }
    rewrite M. cbn [bind].
    assert (S : from_shape (length processed) len (concat (map (fun t => map code t ++ repeat 0%N (len - length t)) processed)) = Ok (map (fun t => map code t ++ repeat 0%N (len - length t)) processed)).
    { rewrite <- (map_length (fun t => map code t ++ repeat 0%N (len - length t)) processed) at 1. apply from_shape_rows. intros r Hr. apply in_map_iff in Hr. destruct Hr as (t & <- & Ht).
      rewrite app_length, map_length, repeat_length. specialize (Hlen t Ht). lia. }
    rewrite S. cbn [bind]. exists (mkData (map (fun t => map code t ++ repeat 0%N (len - length t)) processed) (numbered "Trace_" (length processed)) (numbered "Symbol_" len)), code, len.
    split; [reflexivity|]. cbn [da_rows da_columns da_values]. unfold processed at 1. rewrite map_length. split; [reflexivity|]. split; [reflexivity|]. split; [|split; [|split]].
    - intros t Ht. specialize (Hlen (classes_of src t) ltac:(unfold processed; apply in_map; exact Ht)). unfold classes_of in Hlen. rewrite map_length in Hlen. lia.
    - intros c c' Hc Hc' E. destruct (Hocc c Hc) as [n Hn]. destruct (Hocc c' Hc') as [n' Hn']. unfold code in E. rewrite Hn, Hn' in E. subst n'. eapply C2; eassumption.
    - intros c Hc. destruct (Hocc c Hc) as [n Hn]. unfold code. rewrite Hn. specialize (C1 c n Hn). lia.
    - unfold processed. rewrite map_map. reflexivity.
  Qed.
End Traces.

(** * Datasets of activities *)

Lemma first_snoc level seen x a : first_of_level level (seen ++ [x]) a <->
  first_of_level level seen a \/ (ci_node x = a /\ cn_level a = level /\ forall y, In y seen -> cn_name (ci_node y) = cn_name a -> cn_level (ci_node y) <> level).
Proof.
  unfold first_of_level. split.
  - intros (l1 & z & l2 & E & Hz & Hl & Hy). destruct (@exists_last _ (z :: l2)) as (l' & w & Ew); [discriminate|].
    rewrite Ew, app_assoc in E. apply app_inj_tail in E. destruct E as [E <-]. destruct l' as [|z' l'].
    + cbn in Ew. injection Ew as -> ->. rewrite app_nil_r in E. subst l1. right. auto.
    + cbn in Ew. injection Ew as -> ->. left. exists l1, z', l'. auto.
  - intros [(l1 & z & l2 & -> & H)|(H1 & H2 & H3)].
    + exists l1, z, (l2 ++ [x]). rewrite <- app_assoc. cbn. auto.
    + exists seen, x, []. auto.
Qed.
Lemma first_app level l r a : first_of_level level l a -> first_of_level level (l ++ r) a.
Proof. intros (l1 & z & l2 & -> & H). exists l1, z, (l2 ++ r). rewrite <- app_assoc. cbn. auto. Qed.
Lemma first_unique level l : forall a b, first_of_level level l a -> first_of_level level l b -> cn_name a = cn_name b -> a = b.
Proof.
  induction l as [|x l IH] using rev_ind; intros a b Ha Hb E; [destruct Ha as ([|] & ? & ? & X & _); discriminate|].
  apply first_snoc in Ha. apply first_snoc in Hb. destruct Ha as [Ha|(A1 & A2 & A3)], Hb as [Hb|(B1 & B2 & B3)].
  - apply IH; assumption.
  - exfalso. destruct Ha as (l1 & z & l2 & -> & Hz & Hl & _). apply (B3 z); [apply in_or_app; right; left; reflexivity|congruence|congruence].
  - exfalso. destruct Hb as (l1 & z & l2 & -> & Hz & Hl & _). apply (A3 z); [apply in_or_app; right; left; reflexivity|congruence|congruence].
  - congruence.
Qed.
Lemma first_exists level l : forall x, In x l -> cn_level (ci_node x) = level -> exists a, first_of_level level l a /\ cn_name a = cn_name (ci_node x).
Proof.
  assert (G : forall n l0, length l0 = n -> forall l1 x l2, l = l0 ++ x :: l2 -> l1 = l0 -> cn_level (ci_node x) = level -> exists a, first_of_level level l a /\ cn_name a = cn_name (ci_node x)).
  { induction n as [n IH] using lt_wf_ind. intros l0 Hn l1 x l2 E _ Hx.
    destruct (in_dec str_eq_dec (cn_name (ci_node x)) (map (fun y => cn_name (ci_node y)) (filter (fun y => (cn_level (ci_node y) =? level)%N) l0))) as [H|H].
    - apply in_map_iff in H. destruct H as (y & Ey & Hy). apply filter_In in Hy. destruct Hy as [Hy Hly]. apply N.eqb_eq in Hly.
      apply in_split in Hy. destruct Hy as (m1 & m2 & ->). destruct (IH (length m1)) with (l0 := m1) (l1 := m1) (x := y) (l2 := m2 ++ x :: l2) as (a & Ha & Ea); auto.
      + rewrite app_length in Hn. cbn in Hn. lia.
      + rewrite E, <- app_assoc. reflexivity.
      + exists a. split; [exact Ha|congruence].
    - exists (ci_node x). split; [|reflexivity]. exists l0, x, l2. split; [exact E|]. split; [reflexivity|]. split; [exact Hx|].
      intros y Hy En El. apply H. apply in_map_iff. exists y. split; [exact En|]. apply filter_In. split; [exact Hy|]. apply N.eqb_eq. exact El. }
  intros x Hx Hl. apply in_split in Hx. destruct Hx as (l1 & l2 & E). exact (G _ l1 eq_refl l1 x l2 E eq_refl Hl).
Qed.

Section Activities.
  Variable find_match : option (pystr -> option (nat * nat)).
  Variable order : list pystr -> list pystr.
  Hypothesis Horder : forall l, Permutation (order l) l.
  Variable src : activity_source.
  Variable log : list (list bevent).
  Variable level : N.
  Let class := class_of find_match.

  Definition listed (a : cnode) : list pystr :=
    match src with
    | ActClasses => order (nodup str_eq_dec (map class (sub_events log a)))
    | ActSubTraces => map class (sub_events log a)
    | ActUnderlying => map class (flat_map deepest (sub_events log a))
    end.
  Lemma listed_number a c : count_occ str_eq_dec (listed a) c = activity_number class src log a c.
  Proof.
    unfold listed, activity_number. destruct src; try reflexivity.
    rewrite (proj1 (Permutation_count_occ str_eq_dec _ _) (Horder _) c).
    destruct (in_dec str_eq_dec c (map class (sub_events log a))) as [H|H].
    - apply NoDup_count_occ'; [apply NoDup_nodup|apply nodup_In, H].
    - apply count_occ_not_In. rewrite nodup_In. exact H.
  Qed.
  Lemma counts_err a e : activity_counts find_match order src log a = Err e ->
    (src = ActClasses /\ cn_repeat a = None /\ e = UserError) \/ ~ repeat_in_log (map (@length bevent) log) a.
  Proof.
    unfold activity_counts, ClusterSpec.repeat_in_log, repeat_events. destruct (cn_repeat a) as [[[t s] n]|].
    - intros H. right. intros (len & Hl & Hle). destruct (nth_error log t) as [trace|] eqn:E.
      + apply (map_nth_error (@length bevent)) in E. assert (length trace = len) by congruence.
        assert (s + n <=? length trace = true) as X by (apply Nat.leb_le; lia). rewrite X in H. discriminate.
      + apply nth_error_None in E. assert (t < length (map (@length bevent) log)) by (apply nth_error_Some; congruence). rewrite map_length in *. lia.
    - destruct src; intros H; try discriminate. injection H as <-. left. auto.
  Qed.
  Lemma counts_ok a d : activity_counts find_match order src log a = Ok d -> d = count_classes (listed a) /\ (src = ActClasses -> cn_repeat a <> None).
  Proof.
    unfold activity_counts, listed, sub_events, repeat_events. destruct (cn_repeat a) as [[[t s] n]|].
    - destruct (nth_error log t) as [trace|] eqn:E; [|discriminate]. destruct (s + n <=? length trace); [|discriminate]. cbn [bind]. intros H. injection H as <-.
      rewrite (nth_error_nth log t [] E). split; [destruct src; reflexivity|discriminate].
    - destruct src; intros H; try discriminate; injection H as <-; split; try reflexivity; discriminate.
  Qed.

  Definition rep (seen : list cinst) (d : dict pystr (cnode * dict pystr nat)) : Prop :=
    NoDup (dkeys d) /\ forall n p, dget str_eq_dec d n = Some p <->
      exists a, first_of_level level seen a /\ cn_name a = n /\ p = (a, count_classes (listed a)).
  Lemma process_loop rest : forall seen d, rep seen d ->
    match loopM (fun processed x =>
        if dmem str_eq_dec processed (cn_name (ci_node x)) then Ok processed
        else if negb (cn_level (ci_node x) =? level)%N then Ok processed
        else bind (activity_counts find_match order src log (ci_node x)) (fun counts =>
             Ok (dset str_eq_dec processed (cn_name (ci_node x)) (ci_node x, counts)))) rest d with
    | Ok d' => rep (seen ++ rest) d' /\ ((src = ActClasses -> forall a, first_of_level level seen a -> cn_repeat a <> None) -> src = ActClasses -> forall a, first_of_level level (seen ++ rest) a -> cn_repeat a <> None)
    | Err e => exists a, first_of_level level (seen ++ rest) a /\ activity_counts find_match order src log a = Err e
    end.
  Proof.
    induction rest as [|x rest IH]; intros seen d Hd.
    - cbn [loopM]. rewrite app_nil_r. auto.
    - rewrite loopM_cons. replace (seen ++ x :: rest) with ((seen ++ [x]) ++ rest) by (rewrite <- app_assoc; reflexivity).
      destruct Hd as [Hn Hd].
      assert (Skip : (forall a, first_of_level level (seen ++ [x]) a <-> first_of_level level seen a) -> rep (seen ++ [x]) d).
      { intros H. split; [exact Hn|]. intros n p. rewrite Hd. split; intros (a & Ha & R); exists a; (split; [apply H, Ha|exact R]). }
      destruct (dmem str_eq_dec d (cn_name (ci_node x))) eqn:M; [|destruct (N.eqb_spec (cn_level (ci_node x)) level) as [Hl|Hl]]; cbn [negb bind].
      + assert (H : forall a, first_of_level level (seen ++ [x]) a <-> first_of_level level seen a).
        { intros a. rewrite first_snoc. split; [|auto]. intros [H|(H1 & H2 & H3)]; [exact H|]. exfalso.
          unfold dmem in M. destruct (dget str_eq_dec d (cn_name (ci_node x))) as [p|] eqn:G; [|discriminate]. apply Hd in G. destruct G as (b & (l1 & z & l2 & -> & Hz & Hlz & _) & Eb & _).
          apply (H3 z); [apply in_or_app; right; left; reflexivity|congruence|congruence]. }
        specialize (IH _ _ (Skip H)). destruct (loopM _ rest d) as [d1|e1]; [|exact IH]. destruct IH as [I1 I2]. split; [exact I1|]. intros Hr Hs. apply I2; [|exact Hs]. intros Hs' a Ha. apply Hr; [exact Hs'|apply H, Ha].
      + destruct (activity_counts find_match order src log (ci_node x)) as [counts|e] eqn:C; cbn [bind].
        2:{ exists (ci_node x). split; [|exact C]. apply first_app. apply first_snoc. right. split; [reflexivity|]. split; [exact Hl|].
            intros y Hy En El. destruct (first_exists level seen y Hy El) as (a & Ha & Ea). unfold dmem in M.
            assert (G : dget str_eq_dec d (cn_name (ci_node x)) = Some (a, count_classes (listed a))) by (apply Hd; exists a; split; [exact Ha|split; [congruence|reflexivity]]). rewrite G in M. discriminate. }
        apply counts_ok in C. destruct C as [-> Cr].
        assert (Hnone : dget str_eq_dec d (cn_name (ci_node x)) = None) by (unfold dmem in M; destruct (dget str_eq_dec d (cn_name (ci_node x))); congruence).
        assert (Hx : forall y, In y seen -> cn_name (ci_node y) = cn_name (ci_node x) -> cn_level (ci_node y) <> level).
        { intros y Hy En El. destruct (first_exists level seen y Hy El) as (a & Ha & Ea).
          assert (G : dget str_eq_dec d (cn_name (ci_node x)) = Some (a, count_classes (listed a))) by (apply Hd; exists a; split; [exact Ha|split; [congruence|reflexivity]]). congruence. }
        assert (R : rep (seen ++ [x]) (dset str_eq_dec d (cn_name (ci_node x)) (ci_node x, count_classes (listed (ci_node x))))).
        { split; [apply dset_NoDup; exact Hn|]. intros n p. rewrite dget_dset. destruct (str_eq_dec (cn_name (ci_node x)) n) as [E|E].
          - split.
            + intros H. injection H as <-. exists (ci_node x). split; [apply first_snoc; right; auto|]. auto.
            + intros (a & Ha & En & ->). apply first_snoc in Ha. destruct Ha as [Ha|(H1 & _)]; [|subst a; reflexivity]. exfalso.
              assert (G : dget str_eq_dec d n = Some (a, count_classes (listed a))) by (apply Hd; exists a; auto). congruence.
          - rewrite Hd. split; intros (a & Ha & En & Hp); exists a; (split; [|auto]); [apply first_snoc; auto|]. apply first_snoc in Ha. destruct Ha as [Ha|(H1 & _)]; [exact Ha|congruence]. }
        specialize (IH _ _ R). destruct (loopM _ rest _) as [d1|e1]; [|exact IH]. destruct IH as [I1 I2]. split; [exact I1|]. intros Hr Hs. apply I2; [|exact Hs]. intros Hs' a Ha.
        apply first_snoc in Ha. destruct Ha as [Ha|(H1 & _)]; [apply Hr; assumption|subst a; apply Cr, Hs'].
      + assert (H : forall a, first_of_level level (seen ++ [x]) a <-> first_of_level level seen a).
        { intros a. rewrite first_snoc. split; [|auto]. intros [H|(H1 & H2 & _)]; [exact H|congruence]. }
        specialize (IH _ _ (Skip H)). destruct (loopM _ rest d) as [d1|e1]; [|exact IH]. destruct IH as [I1 I2]. split; [exact I1|]. intros Hr Hs. apply I2; [|exact Hs]. intros Hs' a Ha. apply Hr; [exact Hs'|apply H, Ha].
  Qed.

  Variable instances : list (list cinst).
  Hypothesis Hplaces : forall a, first_of_level level (concat instances) a -> repeat_in_log (map (@length bevent) log) a.

  Lemma process_proof :
    match process_activities find_match order src log level instances with
    | Ok d => rep (concat instances) d /\ (src = ActClasses -> forall a, first_of_level level (concat instances) a -> cn_repeat a <> None)
    | Err e => e = UserError /\ src = ActClasses /\ exists a, first_of_level level (concat instances) a /\ cn_repeat a = None
    end.
  Proof.
    unfold process_activities. pose proof (process_loop (concat instances) [] []) as H. cbn [app] in H.
    assert (R : rep [] []).
    { split; [constructor|]. intros n p. split; [discriminate|]. intros (a & ([|] & ? & ? & X & _) & _); discriminate. }
    specialize (H R). match type of H with match ?x with _ => _ end => destruct x as [d|e] end.
    - destruct H as [H1 H2]. split; [exact H1|]. apply H2. intros _ a ([|] & ? & ? & X & _); discriminate.
    - destruct H as (a & Ha & He). apply counts_err in He. destruct He as [(H1 & H2 & ->)|He]; [eauto|]. exfalso. apply He, Hplaces, Ha.
  Qed.

  Lemma activities_proof :
    (forall a c, first_of_level level (concat instances) a -> small (activity_number class src log a c)) ->
    ((src = ActClasses /\ exists a, first_of_level level (concat instances) a /\ cn_repeat a = None) /\
     activities_dataset find_match order src log level instances = Err UserError) \/
    ((src = ActClasses -> forall a, first_of_level level (concat instances) a -> cn_repeat a <> None) /\
     exists nodes d, activities_dataset find_match order src log level instances = Ok (nodes, d) /\
      (forall a, In a nodes <-> first_of_level level (concat instances) a) /\
      StronglySorted (fun a b => str_leb a b = true /\ a <> b) (map cn_name nodes) /\ da_rows d = map cn_name nodes /\
      tabulates nodes (fun c => exists a, In a nodes /\ 0 < activity_number class src log a c) (activity_number class src log) d).
  Proof.
    intros Hsmall. unfold activities_dataset. pose proof process_proof as P. destruct (process_activities find_match order src log level instances) as [d|e].
    2:{ destruct P as (-> & Hs & Ha). left. split; [split; assumption|reflexivity]. }
    right. destruct P as [[Hn Hd] Hr]. split; [exact Hr|]. cbn [bind].
    set (names := sort_strs (order (dkeys d))).
    assert (Hnames : forall n, In n names <-> exists a, first_of_level level (concat instances) a /\ cn_name a = n).
    { intros n. unfold names. rewrite (sort_order order Horder).
      assert (I : In n (sort_strs (dkeys d)) <-> In n (dkeys d)) by (split; apply Permutation_in; [symmetry|]; apply sort_strs_perm).
      rewrite I, (dget_Some_key str_eq_dec). split.
      - intros [p Hp]. apply Hd in Hp. destruct Hp as (a & Ha & En & _). eauto.
      - intros (a & Ha & En). eexists. apply Hd. exists a. auto. }
    assert (Hstrict : StronglySorted (fun a b => str_leb a b = true /\ a <> b) names) by (unfold names; rewrite (sort_order order Horder); apply strict_sorted, Hn).
    assert (Hrows : exists nodes, mapM (fun n => dgetitem str_eq_dec d n) names = Ok (map (fun a => (a, count_classes (listed a))) nodes) /\ map cn_name nodes = names /\
      forall a, In a nodes -> first_of_level level (concat instances) a).
    { assert (H : forall n, In n names -> exists a, first_of_level level (concat instances) a /\ cn_name a = n) by (intros n; apply Hnames). clear -H Hd.
      induction names as [|n ns IH]; [exists []; repeat split; intros ? []|]. destruct (IH (fun n' Hn' => H n' (or_intror Hn'))) as (nodes & E & En & Hi).
      destruct (H n (or_introl eq_refl)) as (a & Ha & Ean). exists (a :: nodes). cbn [mapM map]. unfold dgetitem at 1.
      assert (G : dget str_eq_dec d n = Some (a, count_classes (listed a))) by (apply Hd; exists a; auto). rewrite G. cbn [bind]. rewrite E. cbn [bind].
      split; [reflexivity|]. split; [congruence|]. intros b [<-|Hb]; auto. }
    destruct Hrows as (nodes & Em & En & Hi). rewrite Em. cbn [bind]. rewrite !map_length.
    assert (Hin : forall a, In a nodes <-> first_of_level level (concat instances) a).
    { intros a. split; [apply Hi|]. intros Ha. assert (In (cn_name a) (map cn_name nodes)) as X by (rewrite En; apply Hnames; eauto).
      apply in_map_iff in X. destruct X as (b & Eb & Hb). rewrite <- (first_unique level (concat instances) b a (Hi b Hb) Ha Eb). exact Hb. }
    set (classes := sorted_classes order (flat_map (fun p : pystr * (cnode * dict pystr nat) => dkeys (snd (snd p))) d)).
    assert (F : flat_map (fun r : cnode * dict pystr nat => counts_row classes (snd r)) (map (fun a => (a, count_classes (listed a))) nodes) = flat_map (fun a => counts_row classes (count_classes (listed a))) nodes).
    { rewrite !flat_map_concat_map, map_map. reflexivity. }
    rewrite F.
    destruct (tabulate_proof nodes (fun c => exists a, In a nodes /\ 0 < activity_number class src log a c) (activity_number class src log) (fun a => count_classes (listed a)) classes (map cn_name nodes)) as (m & Hm & Ht).
    - intros c. unfold classes. rewrite (sorted_classes_In order Horder), in_flat_map. split.
      + intros ([n p] & Hp & Hc). apply (In_dget str_eq_dec) in Hp; [|exact Hn]. apply Hd in Hp. destruct Hp as (a & Ha & _ & ->). cbn [snd] in Hc. apply (proj1 (count_keys (listed a) c)) in Hc.
        exists a. split; [apply Hin, Ha|]. rewrite <- listed_number. apply count_occ_In. exact Hc.
      + intros (a & Ha & Hc). rewrite <- listed_number in Hc. apply (proj2 (count_occ_In str_eq_dec (listed a) c)) in Hc. apply Hin in Ha.
        exists (cn_name a, (a, count_classes (listed a))). split; [apply (dget_In str_eq_dec); apply Hd; exists a; auto|]. cbn [snd]. apply count_keys. exact Hc.
    - apply sorted_classes_sorted. exact Horder.
    - intros a c Ha. split; [apply Hsmall, Hin, Ha|]. rewrite count_value. apply listed_number.
    - destruct (scale_raw _ _ _) as [v|]; [|discriminate]. cbn [bind] in Hm |- *. rewrite Hm. cbn [bind]. eexists. eexists. split.
      + rewrite !map_map. cbn [fst]. rewrite map_id. reflexivity.
      + split; [exact Hin|]. split; [rewrite En; exact Hstrict|]. split; [reflexivity|exact Ht].
  Qed.
End Activities.

Lemma classes_small class log a c : small (activity_number class ActClasses log a c).
Proof. unfold activity_number, small. destruct (in_dec _ _ _); lia. Qed.

Lemma firstn_at {A} (v : list A) i m : i < m -> nth_error (firstn m v) i = nth_error v i.
Proof. revert v m. induction i as [|i IH]; intros [|x v] [|m] H; try lia; try reflexivity. cbn. apply IH. lia. Qed.
Lemma least_label (labels : list (option N)) k : forall i, nth_error labels i = Some (Some k) ->
  exists j, nth_error labels j = Some (Some k) /\ forall m, m < j -> nth_error labels m <> Some (Some k).
Proof.
  induction i as [i IH] using lt_wf_ind. intros H.
  destruct (in_dec (option_eq_dec N.eq_dec) (Some k) (firstn i labels)) as [G|G].
  - apply In_nth_error in G. destruct G as [m G]. assert (m < length (firstn i labels)) as L by (apply nth_error_Some; congruence). rewrite firstn_length in L.
    apply (IH m); [lia|]. rewrite <- G. symmetry. apply firstn_at. lia.
  - exists i. split; [exact H|]. intros m Hm E. apply G. apply (nth_error_In _ m). rewrite <- E. apply firstn_at. exact Hm.
Qed.

(** What [class] sources make of the merged log. *)
Section Twice.
  Variable find_match : option (pystr -> option (nat * nat)).
  Variable order : list pystr -> list pystr.
  Hypothesis Horder : forall l, Permutation (order l) l.
  Variable log : list (list bevent).
  Variable level : N.
  Variables (instances out : list (list cinst)) (processed : list cnode) (labels : list (option N)).
  Hypothesis Hn : NoDup (map cn_name processed).
  Hypothesis Hl : length processed = length labels.
  Hypothesis Hm : merge_activities (map (@length bevent) log) instances processed labels = Ok out.
  Hypothesis Hlevel : forall a, In a processed -> cn_level a = level.
  Hypothesis Hplaces : forall x, In x (concat instances) -> repeat_in_log (map (@length bevent) log) (ci_node x).
  Variables (x : cinst) (k : N).
  Hypothesis Hx : In x (concat instances).
  Hypothesis Hlen : 0 < ci_length x.
  Hypothesis Hk : in_cluster processed labels (cn_name (ci_node x)) k.
  Hypothesis Hc : crowded labels k.
  Hypothesis Hfresh : forall y, In y (concat instances) -> cn_name (ci_node y) <> create_cluster_name k.

  Lemma out_node y : In y (concat out) -> (exists z, In z (concat instances) /\ ci_node y = ci_node z) \/
    exists j, cn_name (ci_node y) = create_cluster_name j /\ cn_repeat (ci_node y) = None /\ cn_level (ci_node y) = level.
  Proof.
    intros Hy. pose proof (merge_nodes_proof _ _ _ _ _ Hn Hl Hm) as F. clear -F Hy Hlevel Hl.
    induction F as [|before after r s H F IH]; [destruct Hy|]. cbn [concat] in Hy |- *. apply in_app_or in Hy. destruct Hy as [Hy|Hy].
    - destruct (H y Hy) as (z & Hz & _ & [[E _]|(j & J1 & J2 & J3 & J4 & _ & J6)]).
      + left. exists z. split; [apply in_or_app; auto|exact E].
      + right. exists j. split; [exact J3|]. split; [exact J4|]. destruct J1 as (i0 & a0 & _ & _ & I0).
        destruct (least_label _ _ _ I0) as (i & Hi & Hmin). destruct (nth_error processed i) as [a|] eqn:E.
        * rewrite (J6 i a E Hi Hmin). apply Hlevel. apply (nth_error_In _ _ E).
        * exfalso. apply nth_error_None in E. assert (i < length labels) by (apply nth_error_Some; congruence). lia.
    - destruct (IH Hy) as [(z & Hz & E)|J]; [|right; exact J]. left. exists z. split; [apply in_or_app; auto|exact E].
  Qed.
  Lemma out_cluster : exists y, In y (concat out) /\ cn_name (ci_node y) = create_cluster_name k.
  Proof.
    pose proof (merge_proof _ _ _ _ _ Hn Hl Hm) as F. clear -F Hx Hlen Hk Hc.
    induction F as [|before after r s H F IH]; [destruct Hx|]. cbn [concat] in Hx |- *. apply in_app_or in Hx. destruct Hx as [Hy|Hy].
    - destruct H as (H & _). destruct (proj2 (H (ci_start x) (create_cluster_name k))) as (y & Hy' & E & _).
      + exists (cn_name (ci_node x)). split; [exists x; split; [exact Hy|split; [reflexivity|lia]]|]. left. exists k. auto.
      + exists y. split; [apply in_or_app; auto|exact E].
    - destruct (IH Hy) as (y & H1 & H2). exists y. split; [apply in_or_app; auto|exact H2].
  Qed.
  Lemma twice_proof : activities_dataset find_match order ActClasses log level out = Err UserError.
  Proof.
    assert (P : forall a, first_of_level level (concat out) a -> repeat_in_log (map (@length bevent) log) a).
    { intros a (l1 & y & l2 & E & <- & _). destruct (out_node y) as [(z & Hz & ->)|(j & _ & R & _)].
      - rewrite E. apply in_or_app. right. left. reflexivity.
      - apply Hplaces, Hz.
      - unfold repeat_in_log. rewrite R. exact I. }
    destruct (activities_proof find_match order Horder ActClasses log level out P) as [[_ H]|[H _]]; [intros; apply classes_small|exact H|]. exfalso.
    destruct out_cluster as (y & Hy & Ey).
    assert (D : forall y, In y (concat out) -> cn_name (ci_node y) = create_cluster_name k -> cn_repeat (ci_node y) = None /\ cn_level (ci_node y) = level).
    { intros w Hw Ew. destruct (out_node w Hw) as [(z & Hz & E)|(j & _ & R & L)]; [|auto]. exfalso. apply (Hfresh z Hz). congruence. }
    destruct (first_exists level (concat out) y Hy (proj2 (D y Hy Ey))) as (a & Ha & Ea). apply (H eq_refl a Ha).
    destruct Ha as (l1 & w & l2 & E & <- & _). apply D; [rewrite E; apply in_or_app; right; left; reflexivity|congruence].
  Qed.
End Twice.

(** * Rows *)

Lemma codes_padded (code : pystr -> N) (known : pystr -> Prop) :
  (forall c c', known c -> known c' -> code c = code c' -> c = c') -> (forall c, known c -> code c <> 0%N) ->
  forall a b n m, (forall c, In c a -> known c) -> (forall c, In c b -> known c) ->
  map code a ++ repeat 0%N n = map code b ++ repeat 0%N m -> a = b.
Proof.
  intros Hi Hz. induction a as [|x a IH]; intros [|y b] n m Ka Kb E; cbn [map app] in E.
  - reflexivity.
  - exfalso. destruct n as [|n]; [discriminate|]. cbn in E. injection E as E _. apply (Hz y); [apply Kb; left; reflexivity|congruence].
  - exfalso. destruct m as [|m]; [discriminate|]. cbn in E. injection E as E _. apply (Hz x); [apply Ka; left; reflexivity|congruence].
  - injection E as E1 E2. f_equal.
    + apply Hi; [apply Ka; left; reflexivity|apply Kb; left; reflexivity|exact E1].
    + apply (IH b n m); [intros c Hc; apply Ka; right; exact Hc|intros c Hc; apply Kb; right; exact Hc|exact E2].
Qed.
Lemma levenshtein_rows_proof find_match log src d i j t u r s :
  traces_dataset_levenshtein find_match log src = Ok d ->
  nth_error log i = Some t -> nth_error log j = Some u -> nth_error (da_values d) i = Some r -> nth_error (da_values d) j = Some s ->
  (r = s <-> map (class_of find_match) (trace_representation src t) = map (class_of find_match) (trace_representation src u)).
Proof.
  intros E Ht Hu Hr Hs. destruct (levenshtein_proof find_match log src) as (d' & code & len & E' & _ & _ & _ & Hi & Hz & Hv).
  assert (d' = d) by congruence. subst d'. rewrite Hv in Hr, Hs. erewrite map_nth_error in Hr, Hs by eassumption. injection Hr as <-. injection Hs as <-. split.
  - apply (codes_padded code (fun c => exists t, In t log /\ In c (map (class_of find_match) (trace_representation src t))) Hi Hz).
    + intros c Hc. exists t. split; [apply (nth_error_In _ _ Ht)|exact Hc].
    + intros c Hc. exists u. split; [apply (nth_error_In _ _ Hu)|exact Hc].
  - intros ->. reflexivity.
Qed.

(** * The order of sets *)

Lemma strict_unique l1 l2 : StronglySorted (fun a b => str_leb a b = true /\ a <> b) l1 -> StronglySorted (fun a b => str_leb a b = true /\ a <> b) l2 ->
  (forall x, In x l1 <-> In x l2) -> l1 = l2.
Proof.
  assert (G : forall l, StronglySorted (fun a b => str_leb a b = true /\ a <> b) l -> StronglySorted (fun a b => str_leb a b = true) l /\ NoDup l).
  { induction 1 as [|x l S [IH1 IH2] F]; split; constructor; auto.
    - eapply Forall_impl; [|exact F]. cbn. tauto.
    - intros H. rewrite Forall_forall in F. apply F in H. tauto. }
  intros S1 S2 H. apply G in S1. apply G in S2. apply sorted_unique; [tauto|tauto|]. apply NoDup_Permutation; tauto.
Qed.
Lemma scaled_unique column x q r : In x column -> scaled column x q -> scaled column x r -> (q == r)%Q.
Proof. intros Hx H1 H2. apply (scaled_same column x x q r Hx Hx H1 H2). reflexivity. Qed.
Lemma tab_unique {O} (objects : list O) occurs number d d' :
  tabulates objects occurs number d -> tabulates objects occurs number d' ->
  da_columns d = da_columns d' /\ Forall2 same_row (da_values d) (da_values d').
Proof.
  intros (C1 & S1 & L1 & V1) (C2 & S2 & L2 & V2).
  assert (E : da_columns d = da_columns d') by (apply strict_unique; [exact S1|exact S2|intros x; rewrite C1, C2; reflexivity]).
  split; [exact E|]. apply F2_nth; [congruence|]. intros i r s Hr Hs.
  destruct (nth_error objects i) as [o|] eqn:Ho.
  2:{ apply nth_error_None in Ho. assert (i < length (da_values d)) by (apply nth_error_Some; congruence). lia. }
  specialize (V1 i o r Ho Hr). specialize (V2 i o s Ho Hs). rewrite <- E in V2.
  assert (I : forall c, In (number o c) (map (fun o' => number o' c) objects)) by (intros c; apply (in_map (fun o' => number o' c)); apply (nth_error_In _ _ Ho)).
  revert V1 V2. generalize (da_columns d). clear -I. intros cs V1. revert s. unfold same_row. induction V1 as [|c q cs qs H V1 IH]; intros s V2; inversion V2; subst; constructor.
  - eapply scaled_unique; [apply I|eassumption|eassumption].
  - apply IH. assumption.
Qed.
Lemma traces_order_proof find_match order order' log src : (forall l, Permutation (order l) l) -> (forall l, Permutation (order' l) l) ->
  traces_dataset_default find_match order log src = traces_dataset_default find_match order' log src.
Proof. intros H H'. unfold traces_dataset_default, sorted_classes. rewrite !(sort_order order H), !(sort_order order' H'). reflexivity. Qed.
Lemma activities_order_proof find_match order order' src log level instances : (forall l, Permutation (order l) l) -> (forall l, Permutation (order' l) l) ->
  (forall a, first_of_level level (concat instances) a -> repeat_in_log (map (@length bevent) log) a) ->
  (forall a c, first_of_level level (concat instances) a -> small (activity_number (class_of find_match) src log a c)) ->
  match activities_dataset find_match order src log level instances, activities_dataset find_match order' src log level instances with
  | Ok (nodes, d), Ok (nodes', d') => nodes = nodes' /\ da_rows d = da_rows d' /\ da_columns d = da_columns d' /\ Forall2 same_row (da_values d) (da_values d')
  | Err e, Err e' => e = e'
  | _, _ => False
  end.
Proof.
  intros H H' Hp Hs. destruct (activities_proof find_match order H src log level instances Hp Hs) as [[(A1 & a & A2 & A3) ->]|[A (nodes & d & -> & D1 & D2 & D3 & D4)]];
  destruct (activities_proof find_match order' H' src log level instances Hp Hs) as [[(B1 & b & B2 & B3) ->]|[B (nodes' & d' & -> & E1 & E2 & E3 & E4)]].
  - reflexivity.
  - exact (B A1 a A2 A3).
  - exact (A B1 b B2 B3).
  - assert (N : map cn_name nodes = map cn_name nodes').
    { apply strict_unique; [exact D2|exact E2|]. intros n. rewrite !in_map_iff. split; intros (a & Ea & Ha); exists a; (split; [exact Ea|]); [apply E1, D1, Ha|apply D1, E1, Ha]. }
    assert (N' : nodes = nodes').
    { assert (P : forall a, In a nodes -> first_of_level level (concat instances) a) by (intros a; apply D1). assert (P' : forall a, In a nodes' -> first_of_level level (concat instances) a) by (intros a; apply E1).
      clear -N P P'. revert nodes' N P'. induction nodes as [|a r IH]; intros [|b s] N P'; try discriminate; [reflexivity|]. cbn [map] in N.
      assert (cn_name a = cn_name b) by congruence. f_equal.
      - apply (first_unique level (concat instances)); [apply P; left; reflexivity|apply P'; left; reflexivity|assumption].
      - apply IH; [intros c Hc; apply P; right; exact Hc|congruence|intros c Hc; apply P'; right; exact Hc]. }
    subst nodes'. split; [reflexivity|]. split; [congruence|].
    eapply tab_unique; [exact D4|exact E4].
Qed.
