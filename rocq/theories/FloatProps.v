(** Property C50: approximate comparison of doubles and validity of points. *)
From Verif Require Import Base FloatModel FloatProofs.

(** C50: symmetric for every tolerance. *)
Theorem C50_is_equal_symmetric : forall tol x y, is_equal_tol x y tol = is_equal_tol y x tol.
Proof. exact is_equal_tol_sym. Qed.

(** C50: true of every number with itself, and never true if a NaN is involved. *)
Theorem C50_is_equal_reflexive_iff : forall tol x, is_equal_tol x x tol = true <-> x <> S754_nan.
Proof. exact is_equal_tol_refl_iff. Qed.

Theorem C50_is_equal_nan : forall tol x, is_equal_tol S754_nan x tol = false /\ is_equal_tol x S754_nan tol = false.
Proof. exact is_equal_tol_nan. Qed.

(** C50: the tolerance is relative: zero is equal only to the zeros, an infinity only to itself. *)
Theorem C50_is_equal_zero : forall s x, is_equal x (S754_zero s) = true <-> exists t, x = S754_zero t.
Proof. exact is_equal_zero. Qed.

Theorem C50_is_equal_infinity : forall s x, is_equal x (S754_infinity s) = true <-> x = S754_infinity s.
Proof. exact is_equal_infinity. Qed.

(** C50: the default point is invalid, and a point is valid exactly if neither coordinate compares equal to -999. *)
Theorem C50_default_point_invalid : is_valid missing_point = false.
Proof. exact missing_point_invalid. Qed.

Theorem C50_is_valid_iff : forall p,
  is_valid p = true <-> is_equal (px p) missing_double = false /\ is_equal (py p) missing_double = false.
Proof. exact is_valid_iff. Qed.

(** Non-trivial cases: distinct doubles that compare equal, and ordinary points that are valid. *)
Example close_numbers_equal :
  let x := double_of (9007199254740993 + 2) (-53) in let y := double_of 9007199254740992 (-53) in
  SFeqb x y = false /\ is_equal x y = true.
Proof. vm_compute. auto. Qed.

Example ordinary_point_valid :
  is_valid (Pt (double_of 3 (-1)) (double_of (-998) 0)) = true /\ is_valid (Pt (double_of 3 0) missing_double) = false.
Proof. vm_compute. auto. Qed.

Print Assumptions C50_is_equal_symmetric.
Print Assumptions C50_is_equal_reflexive_iff.
Print Assumptions C50_is_equal_nan.
Print Assumptions C50_is_equal_zero.
Print Assumptions C50_is_equal_infinity.
Print Assumptions C50_default_point_invalid.
Print Assumptions C50_is_valid_iff.
