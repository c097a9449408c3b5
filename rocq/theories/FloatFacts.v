(** Facts about the rounding of SpecFloat: a number of the target format is kept. *)
From Coq Require Import SpecFloat Lia PArith ZArith.
From Verif Require Import Py WireModel.

(** Two floats with the same value (for finite ones m * 2^e, compared by a shift). *)
Definition same_number (x y : spec_float) : Prop :=
  match x, y with
  | S754_finite s m e, S754_finite s' m' e' =>
      s = s' /\ ((e <= e' /\ Zpos m = Zpos m' * 2 ^ (e' - e)) \/ (e' <= e /\ Zpos m' = Zpos m * 2 ^ (e - e')))%Z
  | _, _ => x = y
  end.

Lemma same_number_sym x y : same_number x y -> same_number y x.
Proof.
  destruct x, y; cbn; intros H; try discriminate; try (symmetry; exact H); try exact H.
  destruct H as [-> [H|H]]; split; auto.
Qed.

(** k doublings. *)
Fixpoint dbl (k : nat) (m : positive) : positive := match k with 0 => m | S k' => xO (dbl k' m) end.
Lemma dbl_Z k m : Zpos (dbl k m) = (Zpos m * 2 ^ Z.of_nat k)%Z.
Proof.
  induction k as [|k IH]; [cbn; lia|].
  cbn [dbl]. rewrite Pos2Z.inj_xO, IH, Nat2Z.inj_succ, Z.pow_succ_r by lia. lia.
Qed.
Lemma dbl_shift m p d : (0 <= d)%Z -> Zpos m = (Zpos p * 2 ^ d)%Z -> m = dbl (Z.to_nat d) p.
Proof. intros Hd E. apply Pos2Z.inj. rewrite dbl_Z, Z2Nat.id by exact Hd. exact E. Qed.
Lemma digits_dbl k m : Zpos (digits2_pos (dbl k m)) = (Zpos (digits2_pos m) + Z.of_nat k)%Z.
Proof.
  induction k as [|k IH]; [cbn [dbl]; lia|].
  cbn [dbl digits2_pos]. rewrite Pos2Z.inj_succ, IH. lia.
Qed.
Lemma iter_pos_nat {A} (f : A -> A) p x : SpecFloat.iter_pos f p x = Nat.iter (Pos.to_nat p) f x.
Proof.
  assert (Hadd : forall a b y, Nat.iter (a + b) f y = Nat.iter a f (Nat.iter b f y)).
  { intros a b y. induction a as [|a IH]; [reflexivity|]. cbn. unfold Nat.iter in IH. f_equal. exact IH. }
  revert x. induction p as [p IH|p IH|]; intros x; cbn [SpecFloat.iter_pos].
  - rewrite !IH. replace (Pos.to_nat p~1) with (Pos.to_nat p + Pos.to_nat p + 1) by lia.
    rewrite !Hadd. reflexivity.
  - rewrite !IH, <- Hadd. f_equal. lia.
  - reflexivity.
Qed.
Lemma shr_exact k m :
  Nat.iter k shr_1 (Build_shr_record (Zpos (dbl k m)) false false) = Build_shr_record (Zpos m) false false.
Proof.
  induction k as [|k IH]; [reflexivity|].
  assert (Hsucc : forall A (f : A -> A) n x, Nat.iter (S n) f x = Nat.iter n f (f x)).
  { intros A f n x. induction n as [|n IHn]; [reflexivity|]. cbn. f_equal. exact IHn. }
  rewrite Hsucc. exact IH.
Qed.

Lemma normalize_exact prec emax x y :
  valid_binary prec emax y = true -> same_number x y ->
  match x with S754_finite s m e => binary_normalize prec emax (cond_Zopp s (Zpos m)) e s | _ => x end = y.
Proof.
  intros Hv Hs. destruct x as [sx|sx| |s m e]; destruct y as [sy|sy| |s' m' e']; cbn in Hs; try exact Hs; try discriminate.
  destruct Hs as [<- Hs]. cbn in Hv. unfold bounded in Hv. apply andb_prop in Hv. destruct Hv as [Hc Hb].
  unfold canonical_mantissa in Hc. apply Zeq_bool_eq in Hc.
  replace (binary_normalize prec emax (cond_Zopp s (Zpos m)) e s) with (binary_round prec emax s m e) by (destruct s; reflexivity).
  assert (Haux : forall mx ex, binary_round_aux prec emax s (Zpos mx) ex loc_Exact =
     let '(mrs', e'0) := shr_fexp prec emax (Zpos mx) ex loc_Exact in
     let '(mrs'', e'') := shr_fexp prec emax (round_nearest_even (shr_m mrs') (loc_of_shr_record mrs')) e'0 loc_Exact in
     match shr_m mrs'' with
     | 0%Z => S754_zero s
     | Zpos m0 => if Zle_bool e'' (emax - prec) then S754_finite s m0 e'' else S754_infinity s
     | Zneg _ => S754_nan
     end) by reflexivity.
  assert (Hfix : shr_fexp prec emax (Zpos m') e' loc_Exact = (Build_shr_record (Zpos m') false false, e')).
  { unfold shr_fexp. cbn [Zdigits2]. rewrite Hc, Z.sub_diag. reflexivity. }
  destruct Hs as [[Hle Em]|[Hle Em]].
  - pose proof (dbl_shift m m' (e' - e) ltac:(lia) Em) as Ed.
    assert (Hd : (Zpos (digits2_pos m) + e = Zpos (digits2_pos m') + e')%Z).
    { rewrite Ed, digits_dbl, Z2Nat.id by lia. lia. }
    unfold binary_round. rewrite Hd, Hc. unfold shl_align.
    assert (E0 : match (e' - e)%Z with Zneg d => (shift_pos d m, e') | _ => (m, e) end = (m, e)).
    { destruct (e' - e)%Z eqn:E; [reflexivity|reflexivity|lia]. }
    rewrite E0. rewrite Haux.
    assert (E1 : shr_fexp prec emax (Zpos m) e loc_Exact = (Build_shr_record (Zpos m') false false, e')).
    { unfold shr_fexp. cbn [Zdigits2]. rewrite Hd, Hc. unfold shr. destruct (e' - e)%Z as [|p|p] eqn:E; [| |lia].
      - replace e' with e by lia. f_equal. cbn in Em. replace (Zpos m') with (Zpos m) by lia. reflexivity.
      - f_equal; [|lia]. cbn [shr_record_of_loc]. rewrite iter_pos_nat, Ed. apply shr_exact. }
    rewrite E1. cbn [shr_m loc_of_shr_record shr_r shr_s round_nearest_even]. rewrite Hfix. cbn [shr_m].
    rewrite Hb. reflexivity.
  - pose proof (dbl_shift m' m (e - e') ltac:(lia) Em) as Ed.
    assert (Hd : (Zpos (digits2_pos m) + e = Zpos (digits2_pos m') + e')%Z).
    { rewrite Ed, digits_dbl, Z2Nat.id by lia. lia. }
    unfold binary_round. rewrite Hd, Hc. unfold shl_align.
    assert (E0 : match (e' - e)%Z with Zneg d => (shift_pos d m, e') | _ => (m, e) end = (m', e')).
    { destruct (e' - e)%Z as [|p|p] eqn:E; [|lia|].
      - f_equal; [|lia]. rewrite Ed. replace (Z.to_nat (e - e')) with 0 by lia. reflexivity.
      - f_equal. apply Pos2Z.inj. rewrite shift_pos_correct, Em. replace (e - e')%Z with (Zpos p) by lia.
        rewrite Z.mul_comm. reflexivity. }
    rewrite E0, Haux, Hfix. cbn [shr_m loc_of_shr_record shr_r shr_s round_nearest_even]. rewrite Hfix. cbn [shr_m].
    rewrite Hb. reflexivity.
Qed.
