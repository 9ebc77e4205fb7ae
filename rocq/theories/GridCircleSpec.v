(** What the properties of circular and graded grids are stated with. *)
From Verif Require Import Base FloatModel UtilModel GridModel GridSpec GridMakeModel GridMakeSpec GridCircleModel.

(** The parameters the code accepts. *)
Definition acceptable (p : parameters) : Prop :=
  (0 < columns p)%Z /\ (0 < rows p)%Z /\ SFleb (double_of (-90) 0) (angle p) = true /\ SFleb (angle p) (double_of 90 0) = true /\
  SFltb (double_of 0 0) (block_x p) = true /\ SFltb (double_of 0 0) (block_y p) = true /\
  Forall (fun x => SFleb (double_of 0 0) x = true) [radius p; column_fraction p; row_fraction p; column_size p; row_size p] /\
  Forall (fun x => is_finite_d x = true) [block_x p; block_y p; radius p; column_size p; row_size p; column_fraction p; row_fraction p].

(** The length of element [m] of [2 * h + u]: the [h] elements at either end grow towards the end, the [u] in the middle do not. *)
Definition element (pow : double -> double -> double) (b g : double) (h u m : Z) : double :=
  let from_end := Z.min m (2 * h + u + 1 - m) in
  if (from_end <=? h)%Z then fmul b (pow g (double_of (h + 1 - from_end) 0)) else b.
(** Each value is the one before plus a length. *)
Definition adds_up (l : list double) (length_of : Z -> double) : Prop :=
  forall m, 0 < m < length l -> nth m l (double_of 0 0) = fadd (nth (m - 1) l (double_of 0 0)) (length_of (Z.of_nat m)).

(** The angle between columns: the block size over the radius, but not more than a full circle over all columns. *)
Definition angle_step (pi : double) (p : parameters) : double :=
  let wanted := fdiv (block_x p) (radius p) in
  if SFltb (fmul (double_of 2 0) pi) (fmul wanted (double_of (columns p) 0)) then fdiv (fmul (double_of 2 0) pi) (double_of (columns p) 0) else wanted.
Definition ray (pi deg_to_rad : double) (p : parameters) (m : nat) : double :=
  fsub (fadd (fmul (angle p) deg_to_rad) (fmul (double_of 1 (-1)) pi)) (fmul (double_of (Z.of_nat m) 0) (angle_step pi p)).
Definition on_circle (cosine sine : double -> double) (o : point) (r theta : double) : point :=
  Pt (fadd (px o) (fmul r (cosine theta))) (fadd (py o) (fmul r (sine theta))).
Definition turned (c s : double) (o : point) (x y : double) : point :=
  Pt (fsub (fadd (px o) (fmul x c)) (fmul y s)) (fadd (fadd (py o) (fmul x s)) (fmul y c)).
