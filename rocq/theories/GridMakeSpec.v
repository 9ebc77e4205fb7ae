(** What the properties of curvature, smoothness and rectangular grids are stated with. *)
From Verif Require Import Base FloatModel UtilModel GridModel GridSpec GridMakeModel.

(** A value for every node with a node on either side in the direction, the missing value for the others. *)
Definition has_both (d : direction) (g : grid) (n m : nat) : Prop :=
  match d with AlongN => 0 < n /\ n + 1 < num_n g | AlongM => 0 < m /\ m + 1 < num_m g end.
Definition node_before (d : direction) (g : grid) (n m : nat) : point := match d with AlongN => vis g (n - 1) m | AlongM => vis g n (m - 1) end.
Definition node_after (d : direction) (g : grid) (n m : nat) : point := match d with AlongN => vis g (n + 1) m | AlongM => vis g n (m + 1) end.
Definition measured (value : point -> point -> point -> double) (d : direction) (g : grid) (x : matrix double) : Prop :=
  mrows x = num_n g /\ mcols x = num_m g /\
  forall n m, n < num_n g -> m < num_m g ->
    (has_both d g n m -> entry x n m = value (node_before d g n m) (vis g n m) (node_after d g n m)) /\
    (~ has_both d g n m -> entry x n m = missing_double).

(** The squared length of the edge between two nodes. *)
Definition squared (p q : point) : double :=
  fadd (fmul (fsub (px q) (px p)) (fsub (px q) (px p))) (fmul (fsub (py q) (py p)) (fsub (py q) (py p))).

(** *** Rectangular grids *)
(** [m] steps of the first edge and [n] steps of the second from the origin. *)
Definition lattice (ux uy vx vy : double) (o : point) (n m : nat) : point :=
  let k (i : nat) x := fmul (double_of (Z.of_nat i) 0) x in
  Pt (fsub (fadd (px o) (k m ux)) (k n vx)) (fadd (fadd (py o) (k m uy)) (k n vy)).
Definition rotated (cosine sine : double -> double) (angle bx by_ : double) : point -> nat -> nat -> point :=
  lattice (fmul bx (cosine angle)) (fmul bx (sine angle)) (fmul by_ (sine angle)) (fmul by_ (cosine angle)).

(** The whole grid, nothing hidden. *)
Definition shows (g : grid) (rows columns : nat) (node : nat -> nat -> point) : Prop :=
  gwf g /\ no_hidden g /\ num_n g = rows /\ num_m g = columns /\ forall n m, n < rows -> m < columns -> vis g n m = node n m.

(** A row with a node at a pole. *)
Definition polar (columns : nat) (latitude : nat -> double) : Prop :=
  exists m, m < columns /\ is_equal (SFabs (latitude m)) (double_of 90 0) = true.
(** [climb n m]: the latitude of row [n], from row to row. *)
Fixpoint climb (next : double -> double) (start : double) (n : nat) : double :=
  match n with 0 => start | S n => next (climb next start n) end.
(** The rows of a spherical grid end at the first row after the first that touches a pole. *)
Definition last_row (columns : nat) (latitude : nat -> nat -> double) (wanted rows : nat) : Prop :=
  2 <= rows <= wanted /\ (forall n, 0 < n -> n + 1 < rows -> ~ polar columns (latitude n)) /\
  (rows < wanted -> polar columns (latitude (rows - 1))).

(** [k] is the first number of steps after which the latitude is not below the highest one, or a step reaches a pole. *)
Definition steps (next mag : double -> double) (start highest : double) (k : nat) : Prop :=
  (forall i, i < k -> SFltb (climb next start i) highest = true) /\
  (forall i, 0 < i < k -> is_equal (mag (climb next start i)) (double_of 90 0) = false) /\
  (SFltb (climb next start k) highest = false \/ 0 < k /\ is_equal (mag (climb next start k)) (double_of 90 0) = true).

(** *** The values *)
Definition minus_point (q p : point) : point := Pt (fsub (px q) (px p)) (fsub (py q) (py p)).
Definition dot_of (a b : point) : double := fadd (fmul (px a) (px b)) (fmul (py a) (py b)).
Definition turn_of (a b : point) : double := fsub (fmul (px a) (py b)) (fmul (py a) (px b)).
Definition is_zero (x : double) : Prop := SFeqb x (double_of 0 0) = true.
(** The radius: the length of the first edge times the cotangent of the angle at the last node. *)
Definition radius_of (p0 p1 p2 : point) : double :=
  fmul (SFsqrt prec64 emax64 (dot_of (minus_point p1 p0) (minus_point p1 p0)))
    (SFabs (fdiv (dot_of (minus_point p2 p1) (minus_point p2 p0)) (turn_of (minus_point p1 p0) (minus_point p2 p1)))).
Definition curved (p0 p1 p2 : point) (v : double) : Prop :=
  let thousandth r := fmul (double_of 1000 0) (SFabs (fdiv (double_of 1 0) r)) in
  (~ (is_valid p0 = true /\ is_valid p1 = true /\ is_valid p2 = true) -> v = missing_double) /\
  (is_valid p0 = true -> is_valid p1 = true -> is_valid p2 = true ->
    (is_zero (turn_of (minus_point p1 p0) (minus_point p2 p1)) \/ is_zero (radius_of p0 p1 p2) -> v = thousandth (double_of 999999 0)) /\
    (~ is_zero (turn_of (minus_point p1 p0) (minus_point p2 p1)) -> ~ is_zero (radius_of p0 p1 p2) -> v = thousandth (radius_of p0 p1 p2))).
(** The ratio of the lengths of the two edges, the other way round if it is below one. *)
Definition smooth (p0 p1 p2 : point) (v : double) : Prop :=
  let ratio := SFsqrt prec64 emax64 (fdiv (squared p1 p2) (squared p0 p1)) in
  (~ (is_valid p0 = true /\ is_valid p1 = true /\ is_valid p2 = true) -> v = missing_double) /\
  (is_valid p0 = true -> is_valid p1 = true -> is_valid p2 = true ->
    (is_zero (squared p0 p1) \/ is_zero (squared p1 p2) -> v = double_of 1 0) /\
    (~ is_zero (squared p0 p1) -> ~ is_zero (squared p1 p2) ->
      (SFltb ratio (double_of 1 0) = true -> v = fdiv (double_of 1 0) ratio) /\ (SFltb ratio (double_of 1 0) = false -> v = ratio))).

(** The arguments that are not refused. *)
Definition checked (columns rows : Z) (angle bx by_ : double) : bool :=
  (0 <? columns)%Z && (0 <? rows)%Z && (SFltb (double_of (-90) 0) angle && SFltb angle (double_of 90 0)) && SFltb (double_of 0 0) bx && SFltb (double_of 0 0) by_.
(** One row further north: the height of a block shrinks with the cosine of the latitude, and with 3/10 + 7/10 of it; a last
    step of less than 2000 m beyond 88 degrees goes to the pole on its side. *)
Definition one_north (cosine mag : double -> double) (deg_to_rad earth_radius block latitude y : double) : Prop :=
  let c := cosine latitude in
  let dy := fmul (fmul block c) (fadd c (fmul (fsub (double_of 1 0) c) (fdiv (double_of 3 0) (double_of 10 0)))) in
  let snap := SFltb (double_of 88 0) (mag (fadd latitude dy)) = true /\ SFltb (fmul (fmul dy deg_to_rad) earth_radius) (double_of 2000 0) = true in
  (~ snap -> y = fadd latitude dy) /\
  (snap -> SFltb (fadd latitude dy) (double_of 0 0) = true -> y = double_of (-90) 0) /\
  (snap -> SFltb (fadd latitude dy) (double_of 0 0) = false -> y = double_of 90 0).
Definition accepted_blocks (bx by_ : double) : bool := SFltb (double_of 0 0) bx && SFltb (double_of 0 0) by_.
