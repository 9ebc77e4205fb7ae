(** IEEE double precision numbers, approximate comparison and points.
    A double is a [spec_float] of Coq's standard library with precision 53 and maximal exponent 1024: the executable specification of
    binary64 with round to nearest even.  NaN payloads and signalling NaNs are not modelled. *)
From Coq Require Export Floats.SpecFloat.
From Verif Require Import Base.
Local Open Scope Z_scope.

Definition prec64 : Z := 53.
Definition emax64 : Z := 1024.
Notation double := spec_float.

(** Conversion of an integer (times a power of two) to the nearest double. *)
Definition double_of (m e : Z) : double := binary_normalize prec64 emax64 m e false.

Definition fadd : double -> double -> double := SFadd prec64 emax64.
Definition fsub : double -> double -> double := SFsub prec64 emax64.
Definition fmul : double -> double -> double := SFmul prec64 emax64.
Definition fdiv : double -> double -> double := SFdiv prec64 emax64.

(** std::min(a, b): the first argument unless the second is smaller. *)
Definition fmin (a b : double) : double := if SFltb b a then b else a.

(** constants::missing::doubleValue = -999.0, Constants.hpp:56 *)
Definition missing_double : double := double_of (-999) 0.
(** constants::missing::innerOuterSeparator = -998.0, Constants.hpp:55 *)
Definition separator_double : double := double_of (-998) 0.

(** 10.0 * std::numeric_limits<double>::epsilon(), epsilon = 2^-52; the default of NumericFunctions.hpp:44 *)
Definition default_tol : double := fmul (double_of 10 0) (double_of 1 (-52)).

(** IsEqual, NumericFunctions.hpp:43-56 *)
Definition is_equal_tol (value ref tol : double) : bool :=
  if SFeqb value ref then true
  else
    let abs_diff := SFabs (fsub value ref) in
    let abs_value := SFabs value in
    let abs_ref := SFabs ref in
    SFltb abs_diff (fmul tol (fmin abs_value abs_ref)).
Definition is_equal (value ref : double) : bool := is_equal_tol value ref default_tol.

(** Point, Point.hpp:40-60 *)
Record point := Pt { px : double; py : double }.

(** Point(), Point.hpp:47-51; also SetInvalid, Point.hpp:255-259 *)
Definition missing_point : point := Pt missing_double missing_double.

(** Point::IsValid, Point.hpp:116-122 *)
Definition is_valid_for (missing : double) (p : point) : bool :=
  negb (is_equal (px p) missing || is_equal (py p) missing).
Definition is_valid (p : point) : bool := is_valid_for missing_double p.
