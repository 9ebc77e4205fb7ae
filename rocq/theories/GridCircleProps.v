(** Properties of circular and graded grids (C111-C113). *)
From Verif Require Import Base FloatModel UtilModel GridModel GridSpec GridMakeModel GridMakeSpec GridCircleModel GridCircleSpec GridCircleProofs GridCircleWitness.

(** ** C111 Graded columns *)
Theorem C111_graded : forall pow truncated p, let t := truncated (fmul (double_of (columns p + 1) 0) (column_fraction p)) in
  (0 < columns p)%Z -> (0 <= t <= columns p + 1)%Z -> SFeqb (column_fraction p) (double_of 1 0) || SFeqb (column_size p) (double_of 1 0) = false ->
  exists h u, (columns p = 2 * h + u)%Z /\ (0 <= h)%Z /\ (0 <= u)%Z /\ (Z.abs (u - t) <= 1)%Z /\
    let g := pow (column_size p) (fdiv (double_of 1 0) (double_of (h + 1) 0)) in
    (is_finite_d (fmul (block_x p) (pow g (double_of (h + 1) 0))) = true -> SFeqb (nth 0 (x_values pow truncated p) (double_of 0 0)) (double_of 0 0) = true) /\
    adds_up (x_values pow truncated p) (element pow (block_x p) g h u).
Proof. exact columns_graded. Qed.
Theorem C111_uniform : forall pow truncated p m, SFeqb (column_fraction p) (double_of 1 0) || SFeqb (column_size p) (double_of 1 0) = true -> m < Z.to_nat (columns p + 1) ->
  nth m (x_values pow truncated p) (double_of 0 0) = fmul (block_x p) (double_of (Z.of_nat m) 0).
Proof. exact columns_uniform. Qed.
Theorem C111_number : forall pow truncated p, length (x_values pow truncated p) = Z.to_nat (columns p + 1).
Proof. exact columns_length. Qed.
(** The same lengths from either end. *)
Theorem C111_symmetric : forall pow b g h u m, element pow b g h u m = element pow b g h u (2 * h + u + 1 - m).
Proof. exact element_symmetric. Qed.
Example C111_case : (0 < columns (sample 0))%Z /\ uniform (column_fraction (sample 0)) (column_size (sample 0)) = false /\ whole_part (fmul (dz (columns (sample 0) + 1)) (column_fraction (sample 0))) = 2%Z.
Proof. split; [reflexivity|exact (sample_columns 0)]. Qed.

(** ** C112 Graded rows *)
Theorem C112_graded : forall pow truncated p, let t := truncated (fmul (double_of (rows p + 1) 0) (row_fraction p)) in
  (0 < rows p)%Z -> (0 <= t <= rows p + 1)%Z -> SFeqb (row_fraction p) (double_of 1 0) || SFeqb (row_size p) (double_of 1 0) = false ->
  exists h u, (rows p = 2 * h + u)%Z /\ (0 <= h)%Z /\ (0 <= u)%Z /\ (Z.abs (u - t) <= 1)%Z /\
    let g := pow (row_size p) (fdiv (double_of 1 0) (double_of (h + 1) 0)) in
    let length_of n := if (n <? u)%Z then block_y p else fmul (block_y p) (pow g (double_of (n + 1 - u) 0)) in
    adds_up (y_values pow truncated p) length_of /\
    (u = 0%Z -> is_finite_d (fmul (block_y p) (pow g (double_of 1 0))) = true -> SFeqb (nth 0 (y_values pow truncated p) (double_of 0 0)) (double_of 0 0) = true).
Proof. exact rows_graded. Qed.
Theorem C112_uniform : forall pow truncated p n, SFeqb (row_fraction p) (double_of 1 0) || SFeqb (row_size p) (double_of 1 0) = true -> n < Z.to_nat (rows p + 1) ->
  nth n (y_values pow truncated p) (double_of 0 0) = fmul (block_y p) (double_of (Z.of_nat n) 0).
Proof. exact rows_uniform. Qed.
Theorem C112_number : forall pow truncated p, length (y_values pow truncated p) = Z.to_nat (rows p + 1).
Proof. exact rows_length. Qed.
(** The first of the graded rows need not lie on the origin. *)
Theorem C112_origin_refuted : ~ (forall pow truncated p, acceptable p -> (0 <= truncated (fmul (double_of (rows p + 1) 0) (row_fraction p)) <= rows p + 1)%Z ->
  SFeqb (nth 0 (y_values pow truncated p) (double_of 0 0)) (double_of 0 0) = true).
Proof.
  intros H. specialize (H power whole_part (sample 0) (sample_acceptable 0 ltac:(lia))). rewrite first_row_off in H. assert (false = true); [apply H; change (0 <= whole_part (fmul (dz (rows (sample 0) + 1)) (row_fraction (sample 0))) <= rows (sample 0) + 1)%Z; rewrite (proj2 (sample_rows 0)); cbn; lia|discriminate].
Qed.
Example C112_case : (0 < rows (sample 0))%Z /\ uniform (row_fraction (sample 0)) (row_size (sample 0)) = false /\ whole_part (fmul (dz (rows (sample 0) + 1)) (row_fraction (sample 0))) = 2%Z.
Proof. split; [reflexivity|exact (sample_rows 0)]. Qed.
Example C112_regular : uniform (row_fraction regular) (row_size regular) = true /\ uniform (column_fraction regular) (column_size regular) = true.
Proof. exact regular_uniform. Qed.

(** ** C113 Nodes of circular and graded grids *)
Theorem C113_grid : forall pow cosine sine truncated pi deg_to_rad p pr, acceptable p ->
  exists g, make_circular pow cosine sine truncated pi deg_to_rad p pr = Ok g /\ proj g = pr /\
    shows g (Z.to_nat (rows p) + 1) (Z.to_nat (columns p) + 1)
      (fun n m => if SFeqb (radius p) (double_of 0 0)
                  then turned (cosine (fmul (angle p) deg_to_rad)) (sine (fmul (angle p) deg_to_rad)) (origin p)
                         (nth m (x_values pow truncated p) (double_of 0 0)) (nth n (y_values pow truncated p) (double_of 0 0))
                  else on_circle cosine sine (origin p) (nth n (radius_values pow truncated p) (double_of 0 0)) (ray pi deg_to_rad p m)).
Proof. exact circular_ok. Qed.
Theorem C113_refused : forall pow cosine sine truncated pi deg_to_rad p pr, ~ acceptable p -> make_circular pow cosine sine truncated pi deg_to_rad p pr = Throw RangeErr.
Proof. exact circular_refused. Qed.
Theorem C113_radii : forall pow truncated p, SFeqb (row_fraction p) (double_of 1 0) || SFeqb (row_size p) (double_of 1 0) = true -> (0 < rows p)%Z ->
  nth 0 (radius_values pow truncated p) (double_of 0 0) = radius p /\ adds_up (radius_values pow truncated p) (fun _ => block_y p).
Proof. exact radii_uniform. Qed.
Theorem C113_graded_radii : forall pow truncated p, let t := truncated (fmul (double_of (rows p + 1) 0) (row_fraction p)) in
  (0 < rows p < 2 ^ 32 - 1)%Z -> (0 <= t <= rows p)%Z -> SFeqb (row_fraction p) (double_of 1 0) || SFeqb (row_size p) (double_of 1 0) = false ->
  exists h u, (rows p = 2 * h + u)%Z /\ (0 <= h)%Z /\ (t <= u <= t + 1)%Z /\
    let g := pow (row_size p) (fdiv (double_of 1 0) (double_of (h + 1) 0)) in
    let length_of n := if (n <? u)%Z then block_y p else fmul (block_y p) (pow g (double_of (n - u) 0)) in
    nth 0 (radius_values pow truncated p) (double_of 0 0) = fadd (radius p) (length_of 0%Z) /\ adds_up (radius_values pow truncated p) length_of.
Proof. exact radii_graded. Qed.
Theorem C113_number : forall pow truncated p, length (radius_values pow truncated p) = Z.to_nat (rows p + 1).
Proof. exact radii_length. Qed.
(** The first of the graded radii is not the radius asked for. *)
Theorem C113_radius_refuted : ~ (forall pow truncated p, acceptable p -> SFeqb (nth 0 (radius_values pow truncated p) (double_of 0 0)) (radius p) = true).
Proof. intros H. specialize (H power whole_part (sample 1) (sample_acceptable 1 ltac:(lia))). rewrite first_radius_off in H. discriminate H. Qed.
Example C113_case : acceptable (sample 0) /\ acceptable (sample 5).
Proof. split; apply sample_acceptable; lia. Qed.
Print Assumptions C111_graded.
Print Assumptions C111_uniform.
Print Assumptions C111_number.
Print Assumptions C111_symmetric.
Print Assumptions C112_graded.
Print Assumptions C112_uniform.
Print Assumptions C112_number.
Print Assumptions C112_origin_refuted.
Print Assumptions C113_grid.
Print Assumptions C113_refused.
Print Assumptions C113_radii.
Print Assumptions C113_graded_radii.
Print Assumptions C113_number.
Print Assumptions C113_radius_refuted.
