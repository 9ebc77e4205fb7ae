(** Cases for the properties of curvature, smoothness and rectangular grids. *)
From Verif Require Import Base FloatModel FloatReal UtilModel GridModel GridSpec GridMakeModel GridMakeSpec GridMakeProofs GridMakeMeasure.

Definition d (z : Z) : double := double_of z 0.
Definition p (x y : Z) : point := Pt (d x) (d y).

(** A curve that turns by a right angle at the last node counts as straight, the same curve the other way round does not. *)
Lemma right_angle : node_curvature (p 0 0) (p 1 1) (p 1 0) = node_curvature (p 0 0) (p 1 0) (p 2 0) /\
  node_curvature (p 1 0) (p 1 1) (p 0 0) = d 1000.
Proof. split; vm_compute; reflexivity. Qed.
Lemma reversal : exists p0 p1 p2, is_valid p0 = true /\ is_valid p1 = true /\ is_valid p2 = true /\ node_curvature p0 p1 p2 <> node_curvature p2 p1 p0.
Proof. exists (p 0 0), (p 1 1), (p 1 0). repeat (split; [vm_compute; reflexivity|]). vm_compute. discriminate. Qed.
(** Three nodes of the unit circle: less than 3/4 of the curvature of the circle. *)
Lemma circle : SFltb (node_curvature (p 1 0) (p 0 1) (p (-1) 0)) (d 750) = true.
Proof. vm_compute. reflexivity. Qed.
(** A straight line has a curvature. *)
Lemma straight p0 p1 p2 : is_valid p0 = true -> is_valid p1 = true -> is_valid p2 = true -> is_zero (turn_of (minus_point p1 p0) (minus_point p2 p1)) ->
  SFltb (d 0) (node_curvature p0 p1 p2) = true.
Proof.
  intros V0 V1 V2 Z. destruct (node_curvature_ok p0 p1 p2) as (_ & H). destruct (H V0 V1 V2) as (S & _). rewrite S by (left; exact Z). vm_compute. reflexivity.
Qed.

(** Edges of lengths 1 and 3. *)
Lemma uneven : node_smoothness (p 0 0) (p 1 0) (p 4 0) = d 3.
Proof. vm_compute. reflexivity. Qed.
Definition bounded_int (z e : Z) : bool := match double_of z e with S754_zero _ | S754_finite _ _ _ => SpecFloat.valid_binary prec64 emax64 (double_of z e) | _ => false end.
(** Edges whose squared lengths overflow: not a number. *)
Definition far (z : Z) : point := Pt (double_of z 700) (d 0).
Lemma overflow : is_valid (far 0) = true /\ is_valid (far 1) = true /\ is_valid (far 2) = true /\ node_smoothness (far 0) (far 1) (far 2) = S754_nan.
Proof. repeat split; vm_compute; reflexivity. Qed.

Lemma finite_of (z e : Z) : bounded_int z e = true -> finite (double_of z e).
Proof. unfold bounded_int. destruct (double_of z e) eqn:E; intros H; try discriminate; (split; [exact H|exact I]). Qed.
Lemma overflow_exists : exists p0 p1 p2, finite_point p0 /\ finite_point p1 /\ finite_point p2 /\
  is_valid p0 = true /\ is_valid p1 = true /\ is_valid p2 = true /\ node_smoothness p0 p1 p2 = S754_nan.
Proof.
  exists (far 0), (far 1), (far 2). do 3 (split; [split; apply finite_of; vm_compute; reflexivity|]). exact overflow.
Qed.
Lemma uneven_finite : finite (squared (p 0 0) (p 1 0)) /\ finite (squared (p 1 0) (p 4 0)) /\ node_smoothness (p 0 0) (p 1 0) (p 4 0) = d 3.
Proof. split; [split; vm_compute; auto|]. split; [split; vm_compute; auto|]. exact uneven. Qed.

(** The grid of an outcome; the functions of its matrices are not to be normalised. *)
Definition grid_of (r : outcome grid) : grid := match r with Ok g => g | _ => empty_grid Cartesian end.
Definition is_grid (r : outcome grid) : bool := match r with Ok _ => true | _ => false end.
Lemma is_grid_ok r : is_grid r = true -> r = Ok (grid_of r).
Proof. destruct r; [reflexivity|discriminate|discriminate]. Qed.
Definition has_size (g : grid) (n m : nat) : bool := (num_n g =? n) && (num_m g =? m).
Lemma has_size_ok g n m : has_size g n m = true -> num_n g = n /\ num_m g = m.
Proof. intros H. apply andb_true_iff in H as [A B]. apply Nat.eqb_eq in A, B. auto. Qed.

(** A grid of three by three nodes. *)
Definition three_nodes : outcome grid := new_grid (Matrix 3 3 (fun n m => p (Z.of_nat (m * m)) (Z.of_nat n))) Cartesian.
Lemma three_ok : exists g, three_nodes = Ok g /\ gwf g /\ num_n g = 3 /\ num_m g = 3 /\ forall n m, n < 3 -> m < 3 -> vis g n m = p (Z.of_nat (m * m)) (Z.of_nat n).
Proof.
  destruct (new_grid_ok (Matrix 3 3 (fun n m => p (Z.of_nat (m * m)) (Z.of_nat n))) Cartesian) as (g & E & _ & W & _ & N & M & V); [cbn; lia|cbn; lia|].
  exists g. auto.
Qed.
Definition value_at (r : outcome (matrix double)) (n m : nat) : double := match r with Ok x => entry x n m | _ => S754_nan end.
Lemma three_smooth : value_at (smoothness AlongM (grid_of three_nodes)) 1 1 = d 3 /\ value_at (smoothness AlongM (grid_of three_nodes)) 1 0 = missing_double.
Proof. split; vm_compute; reflexivity. Qed.

(** A cosine that is small towards the poles. *)
Definition coarse_cosine (latitude : double) : double := if SFltb (d 80) (SFabs latitude) then double_of 1 (-6) else d 1.
Definition flat_sine (_ : double) : double := d 0.
Definition radian : double := fdiv (double_of 314159265 0) (double_of 18000000000 0).
Definition earth : double := d 6378137.
Definition up (x : double) : Z :=
  match x with
  | S754_finite false m e => if (0 <=? e)%Z then (Z.pos m * 2 ^ e)%Z else (- ((- Z.pos m) / 2 ^ (- e)))%Z
  | _ => 0%Z
  end.
Definition no_point (_ _ : nat) : point := missing_point.

(** Towards the north the rows stop at the pole. *)
Definition north : outcome grid := rectangular coarse_cosine flat_sine SFabs no_point radian earth Spherical 2 20 (d 0) (d 89) (d 0) (d 1) (d 1).
Lemma north_checked : checked 2 20 (d 0) (d 1) (d 1) = true.
Proof. vm_compute. reflexivity. Qed.
Lemma north_grid : exists g, north = Ok g /\ num_n g = 2 /\ num_m g = 3 /\ vis g 1 2 = Pt (d 2) (d 90).
Proof.
  exists (grid_of north). split; [apply is_grid_ok; vm_compute; reflexivity|].
  destruct (has_size_ok (grid_of north) 2 3 ltac:(vm_compute; reflexivity)) as (A & B). split; [exact A|]. split; [exact B|]. vm_compute; reflexivity.
Qed.

(** From latitude -89 to 50: one row, to the south pole. *)
Definition southern : outcome grid :=
  on_extension coarse_cosine flat_sine SFabs no_point radian earth up 1000 Spherical (d 0) (d (-89)) (d 1) (d 1) (d 2) (d 50).
Lemma south : exists cosine sine deg_to_rad earth_radius ceiling g,
  on_extension cosine sine SFabs no_point deg_to_rad earth_radius ceiling 1000 Spherical (d 0) (d (-89)) (d 1) (d 1) (d 2) (d 50) = Ok g /\
  num_n g = 2 /\ num_m g = 3 /\ forall m, m < 3 -> vis g 0 m = p (Z.of_nat m) (-89) /\ vis g 1 m = p (Z.of_nat m) (-90).
Proof.
  exists coarse_cosine, flat_sine, radian, earth, up, (grid_of southern). fold southern. split; [apply is_grid_ok; vm_compute; reflexivity|].
  destruct (has_size_ok (grid_of southern) 2 3 ltac:(vm_compute; reflexivity)) as (A & B). split; [exact A|]. split; [exact B|].
  intros m H. destruct m as [|[|[|m]]]; [| | |lia]; split; vm_compute; reflexivity.
Qed.
(** The steps from latitude 0 to 3. *)
Lemma steps_three : steps (next_latitude coarse_cosine SFabs radian earth (d 1)) SFabs (d 0) (d 3) 3.
Proof.
  split; [|split].
  - intros i H. destruct i as [|[|[|i]]]; [| | |lia]; vm_compute; reflexivity.
  - intros i H. destruct i as [|[|[|i]]]; [lia| | |lia]; vm_compute; reflexivity.
  - left. vm_compute. reflexivity.
Qed.
Lemma columns_at m : m < 3 -> py (rotated coarse_cosine flat_sine (d 0) (d 1) (d 1) (Pt (d 0) (d 0)) 0 m) = d 0.
Proof. intros H. destruct m as [|[|[|m]]]; [| | |lia]; vm_compute; reflexivity. Qed.
