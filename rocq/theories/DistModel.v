(** The distances between the rows of a dataset.

    Backend (src/rust/ficus_backend/src): utils/distance/distance.rs 68-122.  L1 and L2 are linfa's.

    Simplified: the symbols of the Levenshtein distance are natural numbers (they are whole f64) and so are the
    numbers in its matrix; the arithmetic of the cosine distance is a parameter. *)
From Coq Require Import Reals SpecFloat.
From Verif Require Import Py DecodeModel DatasetModel.
Close Scope R_scope.

(** matrix[0], utils/distance/distance.rs 95-98: a vector that holds 0 already gets 0, 1, …, a_len - 1. *)
Definition first_row (a_len : nat) : list nat := [0] ++ seq 0 a_len.
(** One number of the matrix, utils/distance/distance.rs 109-113. *)
Definition next_number (x y : N) (up left diagonal : nat) : nat :=
  if (x =? y)%N then diagonal else Nat.min (Nat.min up left) diagonal + 1.
(** matrix[j], utils/distance/distance.rs 100-102 and 107-117: [previous] is matrix[j - 1], [y] is b_vec[j - 1]. *)
Definition next_row (a : list N) (y : N) (previous : list nat) (j : nat) : result (list nat) :=
  loopM (fun row i =>
      bind (at_index a (i - 1)) (fun x =>
      bind (at_index previous i) (fun up =>
      bind (at_index row (i - 1)) (fun left =>
      bind (at_index previous (i - 1)) (fun diagonal =>
      Ok (row ++ [next_number x y up left diagonal])))))) (seq 1 (length a)) [j].
(** The matrix, utils/distance/distance.rs 92-118. *)
Definition lev_matrix (a b : list N) : result (list (list nat)) :=
  loopM (fun matrix j =>
      bind (at_index b (j - 1)) (fun y =>
      bind (at_index matrix (j - 1)) (fun previous =>
      bind (next_row a y previous j) (fun row => Ok (matrix ++ [row]))))) (seq 1 (length b)) [first_row (length a + 1)].
(** LevenshteinDistance::distance, utils/distance/distance.rs 91-121: the last line takes matrix[a_len - 1][b_len - 1]. *)
Definition lev_distance (a b : list N) : result nat :=
  bind (lev_matrix a b) (fun matrix =>
  bind (at_index matrix (length a)) (fun row => at_index row (length b))).

(** CosineDistance::distance, utils/distance/distance.rs 71-85. *)
Section Cosine.
  Variable F : Type.
  Variables (zero one : F) (add mul sub div : F -> F -> F) (sqrt : F -> F).
  Definition cosine_sums (a b : list F) : F * F * F :=
    fold_left (fun s ab => let '(sum, a_square, b_square) := s in let '(x, y) := ab in
                 (add sum (mul x y), add a_square (mul x x), add b_square (mul y y))) (combine a b) (zero, zero, zero).
  (** The value, utils/distance/distance.rs 83. *)
  Definition cosine_distance (a b : list F) : F :=
    let '(sum, a_square, b_square) := cosine_sums a b in
    sub one (div sum (mul (sqrt a_square) (sqrt b_square))).
End Cosine.
(** With exact arithmetic, utils/distance/distance.rs 71-85. *)
Definition cosine_R : list R -> list R -> R := cosine_distance R 0%R 1%R Rplus Rmult Rminus Rdiv R_sqrt.sqrt.
(** With f64, utils/distance/distance.rs 71-85. *)
Definition cosine_f64 : list spec_float -> list spec_float -> spec_float :=
  cosine_distance spec_float (S754_zero false) (S754_finite false 4503599627370496 (-52))
    (SFadd 53 1024) (SFmul 53 1024) (SFsub 53 1024) (SFdiv 53 1024) (SFsqrt 53 1024).
