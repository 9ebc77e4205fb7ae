(** Circular and graded rectangular grids.
    Source: /repo/libs/MeshKernel/src/CurvilinearGrid/CurvilinearGridGenerateCircularGrid.cpp (Circular.cpp below) with
    CheckMakeGridParameters, Parameters.hpp:85-107.
    std::pow, std::cos, std::sin, the conversion of a double to an integer, pi and degToRad are arguments.  Not modelled: numbers of
    rows and columns near the largest int, conversions of a double outside the integers, error messages. *)
From Verif Require Import Base FloatModel UtilModel GridModel.

Definition dz (k : Z) : double := double_of k 0.
Definition is_finite_d (x : double) : bool := match x with S754_zero _ | S754_finite _ _ _ => true | _ => false end.

(** MakeGridParameters, Parameters.hpp:37-83, as far as they are used *)
Record parameters := Parameters {
  columns : Z; rows : Z; angle : double; origin : point; block_x : double; block_y : double; radius : double;
  column_fraction : double; row_fraction : double; column_size : double; row_size : double }.

(** CheckMakeGridParameters, Parameters.hpp:85-107 *)
Definition check_parameters (p : parameters) : outcome unit :=
  let! _ := check_greater int_ops (columns p) 0%Z in
  let! _ := check_greater int_ops (rows p) 0%Z in
  let! _ := check_in_closed double_ops (angle p) (dz (-90)) (dz 90) in
  let! _ := check_greater double_ops (block_x p) (dz 0) in
  let! _ := check_greater double_ops (block_y p) (dz 0) in
  let! _ := check_greater_equal double_ops (radius p) (dz 0) in
  let! _ := check_greater_equal double_ops (column_fraction p) (dz 0) in
  let! _ := check_greater_equal double_ops (row_fraction p) (dz 0) in
  let! _ := check_greater_equal double_ops (column_size p) (dz 0) in
  let! _ := check_greater_equal double_ops (row_size p) (dz 0) in
  let! _ := check_range (is_finite_d (block_x p)) in
  let! _ := check_range (is_finite_d (block_y p)) in
  let! _ := check_range (is_finite_d (radius p)) in
  let! _ := check_range (is_finite_d (column_size p)) in
  let! _ := check_range (is_finite_d (row_size p)) in
  let! _ := check_range (is_finite_d (column_fraction p)) in
  check_range (is_finite_d (row_fraction p)).

Section Circular.
  Variable pow : double -> double -> double.
  Variables cosine sine : double -> double.
  Variable truncated : double -> Z.
  Variables pi deg_to_rad : double.

  (** The number of elements of uniform size, Circular.cpp:33-34, 89-90: made to differ from the number of elements by an even number *)
  Definition uniform_count (size : Z) (fraction : double) : Z :=
    let u := truncated (fmul (dz size) fraction) in (u + Z.rem (size - 1 - u) 2)%Z.
  (** Circular.cpp:35-36, 91-92 *)
  Definition cutoff (size u : Z) : Z := (Z.quot (size - u) 2 + 1)%Z.
  Definition grading (largest : double) (cut : Z) : double := pow largest (fdiv (dz 1) (dz cut)).

  (** computeDeltaX, Circular.cpp:40-58 *)
  Definition delta_x (b g : double) (u cut m : Z) : double :=
    if (m <? cut)%Z then fmul b (pow g (dz (cut - m)))
    else if (m <? cut + u)%Z then b
    else fmul b (pow g (dz (m + 1 - cut - u))).

  (** xValue += delta; xValues[m] = xValue *)
  Fixpoint running (x : double) (deltas : list double) : list double :=
    match deltas with
    | [] => []
    | d :: t => fadd x d :: running (fadd x d) t
    end.
  Definition counted (size : Z) : list Z := map Z.of_nat (seq 0 (Z.to_nat size)).
  Definition uniform (fraction largest : double) : bool := SFeqb fraction (dz 1) || SFeqb largest (dz 1).

  (** ComputeXValues, Circular.cpp:14-68 *)
  Definition x_values (p : parameters) : list double :=
    let size := (columns p + 1)%Z in
    let b := block_x p in
    if uniform (column_fraction p) (column_size p) then map (fun m => fmul b (dz m)) (counted size)
    else
      let u := uniform_count size (column_fraction p) in
      let cut := cutoff size u in
      let g := grading (column_size p) cut in
      running (fmul (SFopp b) (pow g (dz cut))) (map (delta_x b g u cut) (counted size)).

  (** ComputeYValues, Circular.cpp:70-103 *)
  Definition y_values (p : parameters) : list double :=
    let size := (rows p + 1)%Z in
    let b := block_y p in
    if uniform (row_fraction p) (row_size p) then map (fun n => fmul b (dz n)) (counted size)
    else
      let u := uniform_count size (row_fraction p) in
      let g := grading (row_size p) (cutoff size u) in
      running (fmul (SFopp b) (pow g (dz (1 - u)))) (map (fun n => if (n <? u)%Z then b else fmul b (pow g (dz (n + 1 - u)))) (counted size)).

  Notation at_ l i := (nth i l (dz 0)).
  (** GenerateGradedRectangularGrid, Circular.cpp:105-129; the vectors have the size of the grid *)
  Definition graded_nodes (p : parameters) : matrix point :=
    let c := cosine (fmul (angle p) deg_to_rad) in
    let s := sine (fmul (angle p) deg_to_rad) in
    Matrix (Z.to_nat (rows p + 1)) (Z.to_nat (columns p + 1))
      (fun n m => Pt (fsub (fadd (px (origin p)) (fmul (at_ (x_values p) m) c)) (fmul (at_ (y_values p) n) s))
                     (fadd (fadd (py (origin p)) (fmul (at_ (x_values p) m) s)) (fmul (at_ (y_values p) n) c))).

  (** UInt arithmetic *)
  Definition wrap (z : Z) : Z := (z mod 2 ^ 32)%Z.
  (** ComputeRadiusValues, Circular.cpp:131-167, in UInt arithmetic *)
  Fixpoint from_first (r : double) (b : double) (n : nat) : list double :=
    match n with 0 => [] | S n => r :: from_first (fadd r b) b n end.
  Definition radius_values (p : parameters) : list double :=
    let size := (rows p + 1)%Z in
    let b := block_y p in
    if uniform (row_fraction p) (row_size p) then from_first (radius p) b (Z.to_nat size)
    else
      let u := truncated (fmul (dz size) (row_fraction p)) in
      let u := wrap (u + wrap (size - 1 - u) mod 2) in
      let cut := wrap (wrap (size - u) / 2 + 1) in
      let g := grading (row_size p) cut in
      running (radius p) (map (fun n => if (n <? u)%Z then b else fmul b (pow g (dz (wrap (n - u))))) (counted size)).

  (** ComputeThetaValues, Circular.cpp:169-191 *)
  Definition theta_values (p : parameters) : list double :=
    let size := (columns p + 1)%Z in
    let step := fdiv (block_x p) (radius p) in
    let full := fmul (dz 2) pi in
    let step := if SFltb full (fmul step (dz (size - 1))) then fdiv full (dz (size - 1)) else step in
    let offset := fadd (fmul (angle p) deg_to_rad) (fmul (double_of 1 (-1)) pi) in
    map (fun m => fsub offset (fmul (dz m) step)) (counted size).

  (** GenerateCircularGrid, Circular.cpp:193-222 *)
  Definition circular_nodes (p : parameters) : matrix point :=
    let c := map cosine (theta_values p) in
    let s := map sine (theta_values p) in
    Matrix (Z.to_nat (rows p + 1)) (Z.to_nat (columns p + 1))
      (fun n m => let r := at_ (radius_values p) n in
                  Pt (fadd (px (origin p)) (fmul r (at_ c m))) (fadd (py (origin p)) (fmul r (at_ s m)))).

  (** GenerateGridPoints and Compute, Circular.cpp:8-12, 224-234 *)
  Definition make_circular (p : parameters) (pr : projection) : outcome grid :=
    let! _ := check_parameters p in
    new_grid (if SFeqb (radius p) (dz 0) then graded_nodes p else circular_nodes p) pr.
End Circular.
