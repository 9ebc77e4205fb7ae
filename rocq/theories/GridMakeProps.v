(** Properties of curvature, smoothness and rectangular grids. *)
From Verif Require Import Base FloatModel FloatReal LandSpec UtilModel GridModel GridSpec GridMakeModel GridMakeSpec GridMakeProofs GridMakeMeasure GridMakeWitness.

(** ** C100: curvature *)
Theorem C100_curvature_everywhere dir g : gwf g -> exists x, curvature dir g = Ok x /\
  mrows x = num_n g /\ mcols x = num_m g /\
  forall n m, n < num_n g -> m < num_m g ->
    (has_both dir g n m -> curved (node_before dir g n m) (vis g n m) (node_after dir g n m) (entry x n m)) /\
    (~ has_both dir g n m -> entry x n m = missing_double).
Proof. exact (curvature_everywhere dir g). Qed.
Theorem C100_curvature_not_negative p0 p1 p2 :
  (forall p, In p [p0; p1; p2] -> is_double (px p) /\ is_double (py p)) -> is_valid p0 = true -> is_valid p1 = true -> is_valid p2 = true ->
  node_curvature p0 p1 p2 = S754_nan \/ good (node_curvature p0 p1 p2).
Proof. exact (curvature_good p0 p1 p2). Qed.
Theorem C100_straight_not_zero p0 p1 p2 : is_valid p0 = true -> is_valid p1 = true -> is_valid p2 = true ->
  is_zero (turn_of (minus_point p1 p0) (minus_point p2 p1)) -> SFltb (double_of 0 0) (node_curvature p0 p1 p2) = true.
Proof. exact (straight p0 p1 p2). Qed.
Theorem C100_same_both_ways_refuted : exists p0 p1 p2,
  is_valid p0 = true /\ is_valid p1 = true /\ is_valid p2 = true /\ node_curvature p0 p1 p2 <> node_curvature p2 p1 p0.
Proof. exact reversal. Qed.
Theorem C100_circle_refuted : SFltb (node_curvature (Pt (double_of 1 0) (double_of 0 0)) (Pt (double_of 0 0) (double_of 1 0)) (Pt (double_of (-1) 0) (double_of 0 0))) (double_of 750 0) = true.
Proof. exact circle. Qed.
Example C100_right_angle : node_curvature (p 0 0) (p 1 1) (p 1 0) = node_curvature (p 0 0) (p 1 0) (p 2 0) /\ node_curvature (p 1 0) (p 1 1) (p 0 0) = d 1000.
Proof. exact right_angle. Qed.

(** ** C101: smoothness *)
Theorem C101_smoothness_everywhere dir g : gwf g -> exists x, smoothness dir g = Ok x /\
  mrows x = num_n g /\ mcols x = num_m g /\
  forall n m, n < num_n g -> m < num_m g ->
    (has_both dir g n m -> smooth (node_before dir g n m) (vis g n m) (node_after dir g n m) (entry x n m)) /\
    (~ has_both dir g n m -> entry x n m = missing_double).
Proof. exact (smoothness_everywhere dir g). Qed.
Theorem C101_not_below_one p0 p1 p2 : finite_point p0 -> finite_point p1 -> finite_point p2 ->
  is_valid p0 = true -> is_valid p1 = true -> is_valid p2 = true -> finite (squared p0 p1) -> finite (squared p1 p2) ->
  is_double (node_smoothness p0 p1 p2) /\ xle (double_of 1 0) (node_smoothness p0 p1 p2).
Proof. exact (smoothness_least p0 p1 p2). Qed.
Theorem C101_equal_edges p0 p1 p2 : finite_point p0 -> finite_point p1 -> finite_point p2 ->
  is_valid p0 = true -> is_valid p1 = true -> is_valid p2 = true -> finite (squared p0 p1) -> squared p1 p2 = squared p0 p1 ->
  node_smoothness p0 p1 p2 = double_of 1 0.
Proof. exact (smoothness_equal p0 p1 p2). Qed.
Theorem C101_number_refuted : exists p0 p1 p2, finite_point p0 /\ finite_point p1 /\ finite_point p2 /\
  is_valid p0 = true /\ is_valid p1 = true /\ is_valid p2 = true /\ node_smoothness p0 p1 p2 = S754_nan.
Proof. exact overflow_exists. Qed.
Example C101_grid : exists g, three_nodes = Ok g /\ gwf g /\ num_n g = 3 /\ num_m g = 3 /\ forall n m, n < 3 -> m < 3 -> vis g n m = p (Z.of_nat (m * m)) (Z.of_nat n).
Proof. exact three_ok. Qed.
Example C101_grid_values : value_at (smoothness AlongM (grid_of three_nodes)) 1 1 = d 3 /\ value_at (smoothness AlongM (grid_of three_nodes)) 1 0 = missing_double.
Proof. exact three_smooth. Qed.
Example C101_uneven : finite (squared (p 0 0) (p 1 0)) /\ finite (squared (p 1 0) (p 4 0)) /\ node_smoothness (p 0 0) (p 1 0) (p 4 0) = d 3.
Proof. exact uneven_finite. Qed.

(** ** C102: rectangular grids, Cartesian *)
Theorem C102_rectangular cosine sine mag junk deg_to_rad earth_radius columns rows x0 y0 angle bx by_ :
  (checked columns rows angle bx by_ = false ->
    rectangular cosine sine mag junk deg_to_rad earth_radius Cartesian columns rows x0 y0 angle bx by_ = Throw RangeErr) /\
  (checked columns rows angle bx by_ = true -> exists g,
    rectangular cosine sine mag junk deg_to_rad earth_radius Cartesian columns rows x0 y0 angle bx by_ = Ok g /\ proj g = Cartesian /\
    shows g (Z.to_nat rows + 1) (Z.to_nat columns + 1) (rotated cosine sine angle bx by_ (Pt x0 y0))).
Proof. exact (rectangular_cartesian cosine sine mag junk deg_to_rad earth_radius columns rows x0 y0 angle bx by_). Qed.
Theorem C102_accurate_refused cosine sine mag junk deg_to_rad earth_radius columns rows x0 y0 angle bx by_ :
  rectangular cosine sine mag junk deg_to_rad earth_radius SphericalAccurate columns rows x0 y0 angle bx by_ = Throw NotImplementedErr.
Proof. exact (accurate_refused cosine sine mag junk deg_to_rad earth_radius columns rows x0 y0 angle bx by_). Qed.
Theorem C102_in_polygon cosine sine mag junk deg_to_rad earth_radius prj inside ins columns rows x0 y0 angle bx by_ :
  prj <> SphericalAccurate -> 0 < columns -> 0 < rows -> (forall q, inside q = Ok (ins q)) ->
  exists g h, make_grid cosine sine mag junk deg_to_rad earth_radius prj columns rows x0 y0 angle bx by_ = Ok g /\
    in_polygon cosine sine mag junk deg_to_rad earth_radius inside prj columns rows x0 y0 angle bx by_ = Ok h /\
    num_n h = num_n g /\ num_m h = num_m g /\
    forall i j, shown g i j -> (in_inside_cell g ins i j -> vis h i j = vis g i j) /\ (~ in_inside_cell g ins i j -> vis h i j = missing_point).
Proof. exact (polygon_ok cosine sine mag junk deg_to_rad earth_radius prj inside ins columns rows x0 y0 angle bx by_). Qed.

(** ** C103: rectangular grids, spherical *)
Theorem C103_rectangular cosine sine mag junk deg_to_rad earth_radius columns rows x0 y0 angle bx by_ :
  let node := rotated cosine sine angle bx by_ (Pt x0 y0) in
  let latitude n m := climb (next_latitude cosine mag deg_to_rad earth_radius by_) (py (node 0 m)) n in
  (checked columns rows angle bx by_ = false ->
    rectangular cosine sine mag junk deg_to_rad earth_radius Spherical columns rows x0 y0 angle bx by_ = Throw RangeErr) /\
  (checked columns rows angle bx by_ = true -> exists g,
    rectangular cosine sine mag junk deg_to_rad earth_radius Spherical columns rows x0 y0 angle bx by_ = Ok g /\ proj g = Spherical /\
    last_row (Z.to_nat columns + 1) latitude (Z.to_nat rows + 1) (num_n g) /\
    shows g (num_n g) (Z.to_nat columns + 1) (fun n m => Pt (px (node n m)) (latitude n m))).
Proof. exact (rectangular_spherical cosine sine mag junk deg_to_rad earth_radius columns rows x0 y0 angle bx by_). Qed.
Theorem C103_next_latitude cosine mag deg_to_rad earth_radius block latitude :
  one_north cosine mag deg_to_rad earth_radius block latitude (next_latitude cosine mag deg_to_rad earth_radius block latitude).
Proof. exact (next_ok cosine mag deg_to_rad earth_radius block latitude). Qed.
Example C103_checked : checked 2 20 (d 0) (d 1) (d 1) = true.
Proof. exact north_checked. Qed.
Example C103_pole : exists g, north = Ok g /\ num_n g = 2 /\ num_m g = 3 /\ vis g 1 2 = Pt (d 2) (d 90).
Proof. exact north_grid. Qed.

(** ** C104: rectangular grids on an extension *)
Theorem C104_refused cosine sine mag junk deg_to_rad earth_radius ceiling fuel prj x0 y0 bx by_ x1 y1 : prj <> SphericalAccurate ->
  (accepted_blocks bx by_ = false -> on_extension cosine sine mag junk deg_to_rad earth_radius ceiling fuel prj x0 y0 bx by_ x1 y1 = Throw RangeErr) /\
  (accepted_blocks bx by_ = true -> (ceiling (fdiv (fsub x1 x0) bx) <= 0)%Z \/ SFltb (SFabs (fsub y1 y0)) by_ = true ->
    on_extension cosine sine mag junk deg_to_rad earth_radius ceiling fuel prj x0 y0 bx by_ x1 y1 = Throw AlgorithmErr).
Proof. exact (extension_refused cosine sine mag junk deg_to_rad earth_radius ceiling fuel prj x0 y0 bx by_ x1 y1). Qed.
Theorem C104_cartesian cosine sine mag junk deg_to_rad earth_radius ceiling fuel x0 y0 bx by_ x1 y1 :
  accepted_blocks bx by_ = true -> (0 < ceiling (fdiv (fsub x1 x0) bx))%Z -> SFltb (SFabs (fsub y1 y0)) by_ = false ->
  exists g, on_extension cosine sine mag junk deg_to_rad earth_radius ceiling fuel Cartesian x0 y0 bx by_ x1 y1 = Ok g /\ proj g = Cartesian /\
    shows g (Z.to_nat (Z.max (ceiling (fdiv (SFabs (fsub y1 y0)) by_)) 1) + 1) (Z.to_nat (ceiling (fdiv (fsub x1 x0) bx)) + 1)
      (rotated cosine sine (double_of 0 0) bx by_ (Pt x0 y0)).
Proof. exact (extension_cartesian cosine sine mag junk deg_to_rad earth_radius ceiling fuel x0 y0 bx by_ x1 y1). Qed.
Theorem C104_number_of_rows cosine mag deg_to_rad earth_radius ceiling lowest highest block prj k fuel :
  prj <> Cartesian -> SFltb (SFabs (fsub highest lowest)) block = false ->
  (num_rows cosine mag deg_to_rad earth_radius ceiling fuel lowest highest block prj = Ok (Z.of_nat k) ->
    steps (next_latitude cosine mag deg_to_rad earth_radius block) mag lowest highest k) /\
  (steps (next_latitude cosine mag deg_to_rad earth_radius block) mag lowest highest k -> k <= fuel ->
    num_rows cosine mag deg_to_rad earth_radius ceiling fuel lowest highest block prj = Ok (Z.of_nat k)).
Proof. exact (num_rows_ok cosine mag deg_to_rad earth_radius ceiling lowest highest block prj k fuel). Qed.
Theorem C104_spherical cosine sine mag junk deg_to_rad earth_radius ceiling fuel x0 y0 bx by_ x1 y1 k :
  accepted_blocks bx by_ = true -> (0 < ceiling (fdiv (fsub x1 x0) bx))%Z -> SFltb (SFabs (fsub y1 y0)) by_ = false ->
  steps (next_latitude cosine mag deg_to_rad earth_radius by_) SFabs y0 y1 k -> mag = SFabs -> 0 < k <= fuel ->
  let node := rotated cosine sine (double_of 0 0) bx by_ (Pt x0 y0) in
  let columns := Z.to_nat (ceiling (fdiv (fsub x1 x0) bx)) + 1 in
  (forall m, m < columns -> py (node 0 m) = y0) ->
  exists g, on_extension cosine sine mag junk deg_to_rad earth_radius ceiling fuel Spherical x0 y0 bx by_ x1 y1 = Ok g /\ proj g = Spherical /\
    shows g (k + 1) columns (fun n m => Pt (px (node n m)) (climb (next_latitude cosine mag deg_to_rad earth_radius by_) y0 n)).
Proof. exact (extension_spherical cosine sine mag junk deg_to_rad earth_radius ceiling fuel x0 y0 bx by_ x1 y1 k). Qed.
(** The rows need not reach the highest latitude: from -89 degrees the only row goes south. *)
Theorem C104_reached_refuted : exists cosine sine deg_to_rad earth_radius ceiling g,
  on_extension cosine sine SFabs no_point deg_to_rad earth_radius ceiling 1000 Spherical (d 0) (d (-89)) (d 1) (d 1) (d 2) (d 50) = Ok g /\
  num_n g = 2 /\ num_m g = 3 /\ forall m, m < 3 -> vis g 0 m = p (Z.of_nat m) (-89) /\ vis g 1 m = p (Z.of_nat m) (-90).
Proof. exact south. Qed.
Example C104_steps : steps (next_latitude coarse_cosine SFabs radian earth (d 1)) SFabs (d 0) (d 3) 3.
Proof. exact steps_three. Qed.
Example C104_first_row m : m < 3 -> py (rotated coarse_cosine flat_sine (d 0) (d 1) (d 1) (Pt (d 0) (d 0)) 0 m) = d 0.
Proof. exact (columns_at m). Qed.

Print Assumptions C100_curvature_everywhere.
Print Assumptions C100_curvature_not_negative.
Print Assumptions C100_straight_not_zero.
Print Assumptions C100_same_both_ways_refuted.
Print Assumptions C100_circle_refuted.
Print Assumptions C101_smoothness_everywhere.
Print Assumptions C101_not_below_one.
Print Assumptions C101_equal_edges.
Print Assumptions C101_number_refuted.
Print Assumptions C102_rectangular.
Print Assumptions C102_accurate_refused.
Print Assumptions C102_in_polygon.
Print Assumptions C103_rectangular.
Print Assumptions C103_next_latitude.
Print Assumptions C104_refused.
Print Assumptions C104_cartesian.
Print Assumptions C104_number_of_rows.
Print Assumptions C104_spherical.
Print Assumptions C104_reached_refuted.
