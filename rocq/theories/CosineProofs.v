From Coq Require Import Reals Lra Psatz SpecFloat.
From Verif Require Import Py DistModel DistSpec.
Open Scope R_scope.

(** * Over the real numbers *)

(** Sums of products. *)
Fixpoint dot (a b : list R) : R := match a, b with x :: a', y :: b' => x * y + dot a' b' | _, _ => 0 end.
Lemma sums_fold a : forall b s t u, length a = length b -> fold_left (fun s ab => let '(sum, a_square, b_square) := s in let '(x, y) := ab in
     (Rplus sum (Rmult x y), Rplus a_square (Rmult x x), Rplus b_square (Rmult y y))) (combine a b) (s, t, u) = (s + dot a b, t + dot a a, u + dot b b).
Proof.
  induction a as [|x a IH]; intros [|y b] s t u H; try discriminate; cbn [combine fold_left dot].
  - f_equal; [f_equal|]; ring.
  - rewrite IH by (cbn in H; lia). f_equal; [f_equal|]; ring.
Qed.
Lemma cosine_value a b : length a = length b -> cosine_R a b = 1 - dot a b / (sqrt (dot a a) * sqrt (dot b b)).
Proof. intros H. unfold cosine_R, cosine_distance, cosine_sums. rewrite sums_fold by exact H. rewrite !Rplus_0_l. reflexivity. Qed.
Lemma dot_sym a : forall b, dot a b = dot b a.
Proof. induction a as [|x a IH]; intros [|y b]; cbn; auto. rewrite IH. ring. Qed.
Lemma dot_self a : 0 <= dot a a.
Proof. induction a as [|x a IH]; cbn; [lra|]. nra. Qed.
Lemma dot_self_zero a : dot a a = 0 -> forall x, In x a -> x = 0.
Proof.
  induction a as [|x a IH]; cbn; [contradiction|]. intros H y [<-|Hy]; pose proof (dot_self a); [nra|]. apply IH; [nra|exact Hy].
Qed.
Lemma dot_nonneg a : forall b, (forall x, In x a -> 0 <= x) -> (forall y, In y b -> 0 <= y) -> 0 <= dot a b.
Proof.
  induction a as [|x a IH]; intros [|y b] Ha Hb; cbn; try lra.
  assert (0 <= x) by (apply Ha; left; reflexivity). assert (0 <= y) by (apply Hb; left; reflexivity).
  assert (0 <= dot a b) by (apply IH; intros; [apply Ha|apply Hb]; right; assumption). nra.
Qed.
Lemma dot_positive a x : In x a -> x <> 0 -> 0 < dot a a.
Proof. intros Hx Hn. destruct (Rle_lt_or_eq_dec 0 (dot a a) (dot_self a)) as [H|H]; [exact H|]. exfalso. apply Hn. apply (dot_self_zero a); auto. Qed.
(** The squares of b - t a. *)
Lemma dot_residue t a : forall b, length a = length b -> dot b b - 2 * t * dot a b + t * t * dot a a = dot (map (fun p => snd p - t * fst p) (combine a b)) (map (fun p => snd p - t * fst p) (combine a b)).
Proof.
  induction a as [|x a IH]; intros [|y b] H; try discriminate; cbn [combine map dot fst snd]; [ring|]. rewrite <- IH by (cbn in H; lia). ring.
Qed.
Lemma cauchy a b : length a = length b -> dot a b * dot a b <= dot a a * dot b b.
Proof.
  intros H. destruct (Rle_lt_or_eq_dec 0 (dot a a) (dot_self a)) as [Ha|Ha].
  - pose proof (dot_residue (dot a b / dot a a) a b H) as E. pose proof (dot_self (map (fun p => snd p - (dot a b / dot a a) * fst p) (combine a b))) as P. rewrite <- E in P.
    assert (Q : dot b b - 2 * (dot a b / dot a a) * dot a b + dot a b / dot a a * (dot a b / dot a a) * dot a a = dot b b - dot a b * dot a b / dot a a) by (field; lra).
    rewrite Q in P. apply (Rmult_le_reg_r (/ dot a a)); [apply Rinv_0_lt_compat; exact Ha|]. replace (dot a a * dot b b * / dot a a) with (dot b b) by (field; lra). unfold Rdiv in P. lra.
  - pose proof (dot_self_zero a (eq_sym Ha)) as Z. assert (D : dot a b = 0).
    { clear -Z. revert b. induction a as [|x a IH]; intros [|y b]; cbn; auto. rewrite IH by (intros; apply Z; right; assumption). rewrite (Z x) by (left; reflexivity). ring. }
    rewrite D, <- Ha. lra.
Qed.

Section Rows.
  Variables a b : list R.
  Hypothesis Hl : length a = length b.
  Hypothesis Ha : forall x, In x a -> 0 <= x.
  Hypothesis Hb : forall y, In y b -> 0 <= y.
  Hypothesis Na : exists x, In x a /\ x <> 0.
  Hypothesis Nb : exists y, In y b /\ y <> 0.
  Lemma norms : 0 < dot a a /\ 0 < dot b b /\ 0 < sqrt (dot a a) * sqrt (dot b b).
  Proof.
    destruct Na as (x & X1 & X2). destruct Nb as (y & Y1 & Y2). assert (0 < dot a a) by (eapply dot_positive; eassumption). assert (0 < dot b b) by (eapply dot_positive; eassumption).
    split; [assumption|]. split; [assumption|]. apply Rmult_lt_0_compat; apply sqrt_lt_R0; assumption.
  Qed.
  Lemma cosine_range : 0 <= cosine_R a b <= 1.
  Proof.
    rewrite cosine_value by exact Hl. destruct norms as (P & Q & N). pose proof (dot_nonneg a b Ha Hb) as S.
    assert (D : dot a b <= sqrt (dot a a) * sqrt (dot b b)).
    { rewrite <- sqrt_mult_alt by lra. rewrite <- (sqrt_square (dot a b)) by exact S. apply sqrt_le_1_alt, cauchy, Hl. }
    assert (0 <= dot a b / (sqrt (dot a a) * sqrt (dot b b)) <= 1); [|lra]. split.
    - apply Rmult_le_pos; [exact S|]. left. apply Rinv_0_lt_compat, N.
    - apply (Rmult_le_reg_r (sqrt (dot a a) * sqrt (dot b b))); [exact N|]. unfold Rdiv. rewrite Rmult_assoc, Rinv_l by lra. lra.
  Qed.
  Lemma cosine_zero : cosine_R a b = 0 <-> exists t, 0 < t /\ b = map (Rmult t) a.
  Proof.
    rewrite cosine_value by exact Hl. destruct norms as (P & Q & N). pose proof (dot_nonneg a b Ha Hb) as S. split.
    - intros E. assert (D : dot a b = sqrt (dot a a) * sqrt (dot b b)).
      { assert (X : dot a b / (sqrt (dot a a) * sqrt (dot b b)) = 1) by lra. apply (f_equal (fun z => z * (sqrt (dot a a) * sqrt (dot b b)))) in X. unfold Rdiv in X. rewrite Rmult_assoc, Rinv_l in X by lra. lra. }
      assert (D2 : dot a b * dot a b = dot a a * dot b b).
      { rewrite D. replace (sqrt (dot a a) * sqrt (dot b b) * (sqrt (dot a a) * sqrt (dot b b))) with ((sqrt (dot a a) * sqrt (dot a a)) * (sqrt (dot b b) * sqrt (dot b b))) by ring. rewrite !sqrt_sqrt by lra. reflexivity. }
      set (t := dot a b / dot a a). exists t.
      assert (Z : dot (map (fun p => snd p - t * fst p) (combine a b)) (map (fun p => snd p - t * fst p) (combine a b)) = 0).
      { rewrite <- dot_residue by exact Hl. unfold t. apply (Rmult_eq_reg_r (dot a a)); [|lra]. field_simplify; [|lra]. lra || nra. }
      split.
      + unfold t. apply Rmult_lt_0_compat; [|apply Rinv_0_lt_compat; exact P]. rewrite D. exact N.
      + pose proof (dot_self_zero _ Z) as R. clearbody t. clear -R Hl. revert b Hl R. induction a as [|x a' IH]; intros [|y b'] Hl R; try discriminate; [reflexivity|]. cbn [map]. f_equal.
        * assert (y - t * x = 0) by (apply R; left; reflexivity). lra.
        * apply IH; [cbn in Hl; lia|]. intros z Hz. apply R. right. exact Hz.
    - intros (t & Ht & E).
      assert (D1 : dot a b = t * dot a a) by (rewrite E; clear; induction a as [|x a' IH]; cbn [map dot]; [ring|rewrite IH; ring]).
      assert (D2 : dot b b = t * t * dot a a) by (rewrite E; clear; induction a as [|x a' IH]; cbn [map dot]; [ring|rewrite IH; ring]).
      rewrite D1, D2. rewrite sqrt_mult_alt by nra. rewrite sqrt_square by lra.
      replace (sqrt (dot a a) * (t * sqrt (dot a a))) with (t * (sqrt (dot a a) * sqrt (dot a a))) by ring. rewrite sqrt_sqrt by lra. field. split; lra.
  Qed.
  Lemma cosine_one : cosine_R a b = 1 <-> Forall2 (fun x y => x = 0 \/ y = 0) a b.
  Proof.
    rewrite cosine_value by exact Hl. destruct norms as (P & Q & N). pose proof (dot_nonneg a b Ha Hb) as S.
    assert (G : dot a b = 0 <-> Forall2 (fun x y => x = 0 \/ y = 0) a b).
    { clear -Ha Hb Hl. revert b Hl Hb. induction a as [|x a' IH]; intros [|y b'] Hl Hb; try discriminate; cbn [dot]; [split; [constructor|reflexivity]|].
      assert (0 <= x) by (apply Ha; left; reflexivity). assert (0 <= y) by (apply Hb; left; reflexivity).
      assert (0 <= dot a' b') by (apply dot_nonneg; intros; [apply Ha|apply Hb]; right; assumption). assert (0 <= x * y) by nra. split.
      - intros E. constructor; [apply Rmult_integral; lra|]. apply IH; [intros; apply Ha; right; assumption|cbn in Hl; lia|intros; apply Hb; right; assumption|lra].
      - intros F. inversion F as [|? ? ? ? E F']; subst. apply IH in F'; [|intros; apply Ha; right; assumption|cbn in Hl; lia|intros; apply Hb; right; assumption]. rewrite F'. destruct E as [->| ->]; ring. }
    rewrite <- G. split; intros E.
    - assert (X : dot a b / (sqrt (dot a a) * sqrt (dot b b)) = 0) by lra. apply (f_equal (fun z => z * (sqrt (dot a a) * sqrt (dot b b)))) in X. unfold Rdiv in X. rewrite Rmult_assoc, Rinv_l in X by lra. lra.
    - rewrite E. unfold Rdiv. lra.
  Qed.
  Lemma cosine_sym : cosine_R a b = cosine_R b a.
  Proof. rewrite !cosine_value by congruence. rewrite (dot_sym b a), (Rmult_comm (sqrt (dot b b))). reflexivity. Qed.
End Rows.

(** * With f64 *)

Lemma zero_mul x y : is_zero x -> is_zero (SFmul 53 1024 x y) \/ SFmul 53 1024 x y = S754_nan.
Proof. intros [s ->]. destruct y; cbn; unfold is_zero; eauto. Qed.
Lemma zero_add x y : is_zero x \/ x = S754_nan -> is_zero y \/ y = S754_nan -> is_zero (SFadd 53 1024 x y) \/ SFadd 53 1024 x y = S754_nan.
Proof. intros [[s ->]| ->] [[t ->]| ->]; cbn; unfold is_zero; try (destruct (Bool.eqb s t)); eauto. Qed.
Lemma zero_sums a : (forall x, In x a -> is_zero x) -> forall b s t u, is_zero s \/ s = S754_nan -> is_zero t ->
  match fold_left (fun s ab => let '(sum, a_square, b_square) := s in let '(x, y) := ab in
     (SFadd 53 1024 sum (SFmul 53 1024 x y), SFadd 53 1024 a_square (SFmul 53 1024 x x), SFadd 53 1024 b_square (SFmul 53 1024 y y))) (combine a b) (s, t, u) with
  | (sum, a_square, _) => (is_zero sum \/ sum = S754_nan) /\ is_zero a_square
  end.
Proof.
  induction a as [|x a IH]; intros Ha [|y b] s t u Hs Ht; cbn [combine fold_left]; auto.
  apply IH; [intros z Hz; apply Ha; right; exact Hz| |].
  - apply zero_add; [exact Hs|]. apply zero_mul. apply Ha. left. reflexivity.
  - destruct (Ha x (or_introl eq_refl)) as [sx ->]. destruct Ht as [st ->]. cbn. destruct (Bool.eqb st _); eexists; reflexivity.
Qed.
Lemma cosine_nan a b : (forall x, In x a -> is_zero x) -> cosine_f64 a b = S754_nan.
Proof.
  intros Ha. unfold cosine_f64, cosine_distance, cosine_sums.
  pose proof (zero_sums a Ha b (S754_zero false) (S754_zero false) (S754_zero false) (or_introl (ex_intro _ _ eq_refl)) (ex_intro _ _ eq_refl)) as H.
  match type of H with match ?x with _ => _ end => destruct x as [[sum sq] sq'] end. destruct H as [Hs [st ->]].
  assert (Z : is_zero (SFmul 53 1024 (SFsqrt 53 1024 (S754_zero st)) (SFsqrt 53 1024 sq')) \/ SFmul 53 1024 (SFsqrt 53 1024 (S754_zero st)) (SFsqrt 53 1024 sq') = S754_nan).
  { apply zero_mul. cbn. eexists. reflexivity. }
  destruct Hs as [[s1 ->]| ->], Z as [[s2 ->]| ->]; reflexivity.
Qed.
