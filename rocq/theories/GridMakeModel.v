(** Curvature and smoothness of a curvilinear grid, and rectangular grids.
    Source: /repo/libs/MeshKernel/src/CurvilinearGrid/CurvilinearGridCurvature.cpp (Curvature.cpp below), CurvilinearGridSmoothness.cpp
    (Smoothness.cpp), CurvilinearGridRectangular.cpp (Rectangular.cpp).
    Not modelled: the bounding box and the rotation that give the origin and the numbers of rows and columns for a polygon (arguments);
    cosines and sines are arguments; the number of iterations of the loop over latitudes is bounded by fuel. *)
From Verif Require Import Base FloatModel UtilModel GridModel.

Definition fsqrt : double -> double := SFsqrt prec64 emax64.
Definition nonzero (x : double) : bool := negb (SFeqb x (double_of 0 0)).

(** *** Curvature and smoothness *)

(** CurvilinearDirection *)
Inductive direction := AlongN | AlongM.

(** ComputeNodeCurvature, Curvature.cpp:64-98 *)
Definition node_curvature (p0 p1 p2 : point) : double :=
  if is_valid p0 && is_valid p1 && is_valid p2 then
    let x10 := fsub (px p1) (px p0) in
    let y10 := fsub (py p1) (py p0) in
    let x20 := fsub (px p2) (px p0) in
    let y20 := fsub (py p2) (py p0) in
    let x21 := fsub (px p2) (px p1) in
    let y21 := fsub (py p2) (py p1) in
    let area2 := fsub (fmul x10 y21) (fmul y10 x21) in
    let distance01 := fsqrt (fadd (fmul x10 x10) (fmul y10 y10)) in
    let radius := if nonzero area2 then fmul distance01 (SFabs (fdiv (fadd (fmul x21 x20) (fmul y21 y20)) area2)) else double_of 999999 0 in
    let radius := if SFeqb radius (double_of 0 0) then double_of 999999 0 else radius in
    fmul (double_of 1000 0) (SFabs (fdiv (double_of 1 0) radius))
  else missing_double.

(** ComputeNodeSmoothness, Smoothness.cpp:68-99 *)
Definition node_smoothness (p0 p1 p2 : point) : double :=
  if is_valid p0 && is_valid p1 && is_valid p2 then
    let x10 := fsub (px p1) (px p0) in
    let y10 := fsub (py p1) (py p0) in
    let x21 := fsub (px p2) (px p1) in
    let y21 := fsub (py p2) (py p1) in
    let l10 := fadd (fmul x10 x10) (fmul y10 y10) in
    let l21 := fadd (fmul x21 x21) (fmul y21 y21) in
    if nonzero l10 && nonzero l21 then
      let s := fsqrt (fdiv l21 l10) in
      if SFltb s (double_of 1 0) then fdiv (double_of 1 0) s else s
    else double_of 1 0
  else missing_double.

(** The loops of both Compute functions, Curvature.cpp:34-62, Smoothness.cpp:38-66, with the value of one node as argument *)
Definition measure_step (value : point -> point -> point -> double) (d : direction) g (x : matrix double) (ij : nat * nat) : outcome (matrix double) :=
  let (i, j) := ij in
  let before := match d with AlongN => (i - 1, j) | AlongM => (i, j - 1) end in
  let after := match d with AlongN => (i + 1, j) | AlongM => (i, j + 1) end in
  let! p0 := get_node g (fst before) (snd before) in
  let! p1 := get_node g i j in
  let! p2 := get_node g (fst after) (snd after) in
  Ok (Matrix (mrows x) (mcols x) (put_entry (entry x) i j (value p0 p1 p2))).
Definition measure (value : point -> point -> point -> double) (d : direction) g : outcome (matrix double) :=
  let x := Matrix (num_n g) (num_m g) (fun _ _ => missing_double) in
  match d with
  | AlongN => fold_out (measure_step value d g) (pairs 1 (num_n g - 1) 0 (num_m g)) x
  | AlongM => fold_out (measure_step value d g) (pairs 0 (num_n g) 1 (num_m g - 1)) x
  end.
Definition curvature := measure node_curvature.
Definition smoothness := measure node_smoothness.

(** *** Rectangular grids *)
Section Rectangular.
  (** std::cos and std::sin of an angle in degrees; the function called abs in the latitude loops (abs of an int or of a double,
      whichever the compiler finds) *)
  Variables cosine sine : double -> double.
  Variable mag : double -> double.
  (** Entries of a resized matrix that were not written *)
  Variable junk : nat -> nat -> point.

  (** static_cast<double>(Eigen::Index) *)
  Definition times_index (k : nat) (x : double) : double := fmul (double_of (Z.of_nat k) 0) x.

  (** ComputeCartesian, Rectangular.cpp:87-118; every entry is written once *)
  Definition cartesian_nodes (columns rows : nat) (x0 y0 angle bx by_ : double) : matrix point :=
    let c := cosine angle in
    let s := sine angle in
    let x_cos := fmul bx c in
    let y_sin := fmul by_ s in
    let x_sin := fmul bx s in
    let y_cos := fmul by_ c in
    Matrix (rows + 1) (columns + 1)
      (fun n m => Pt (fsub (fadd x0 (times_index m x_cos)) (times_index n y_sin)) (fadd (fadd y0 (times_index m x_sin)) (times_index n y_cos))).

  (** ComputeLatitudeIncrementWithAdjustment, Rectangular.cpp:167-186; the difference is multiplied in the order of the
      code: (dy * degToRad) * earth_radius *)
  Variables deg_to_rad earth_radius : double.
  Definition next_latitude (block latitude : double) : double :=
    let c := cosine latitude in
    let asp := fadd c (fmul (fsub (double_of 1 0) c) (fdiv (double_of 3 0) (double_of 10 0))) in
    let dy := fmul (fmul block c) asp in
    let result := fadd latitude dy in
    let difference := fmul (fmul dy deg_to_rad) earth_radius in
    if SFltb (double_of 88 0) (mag result) && SFltb difference (double_of 2000 0)
    then fmul (double_of 90 0) (if SFltb result (double_of 0 0) then SFopp (double_of 1 0) else double_of 1 0)
    else result.

  (** IsEqual(std::abs(latitude), 90.0), Rectangular.cpp:149 *)
  Definition at_pole (latitude : double) : bool := is_equal (SFabs latitude) (double_of 90 0).

  (** One row of ComputeSpherical, Rectangular.cpp:143-154: the matrix and whether the pole is reached *)
  Definition row_step (block : double) (n : nat) (s : matrix point * bool) (m : nat) : matrix point * bool :=
    let (x, on) := s in
    let y := next_latitude block (py (entry x (n - 1) m)) in
    (Matrix (mrows x) (mcols x) (put_entry (entry x) n m (Pt (px (entry x n m)) y)), on || at_pole y).
  Definition spherical_row (block : double) (n : nat) (x : matrix point) : matrix point * bool :=
    fold_left (row_step block n) (range 0 (mcols x)) (x, false).

  (** The loop over the rows with its break, Rectangular.cpp:141-163 *)
  Fixpoint spherical_rows (block : double) (ns : list nat) (x : matrix point) : outcome (matrix point) :=
    match ns with
    | [] => Ok x
    | n :: ns =>
        let (x, on) := spherical_row block n x in
        if on then
          if n + 1 <? mrows x then erase_rows junk x (Z.of_nat n + 1) (Z.of_nat (mrows x) - 1) else Ok x
        else spherical_rows block ns x
    end.

  (** ComputeSpherical, Rectangular.cpp:120-165 *)
  Definition spherical_nodes (columns rows : nat) (x0 y0 angle bx by_ : double) : outcome (matrix point) :=
    let x := cartesian_nodes columns rows x0 y0 angle bx by_ in
    spherical_rows by_ (range 1 (mrows x)) x.

  (** The last part of all three Compute functions; sphericalAccurate is refused by the constructor, Rectangular.cpp:40-46, 62-84 *)
  Definition make_grid (p : projection) (columns rows : nat) (x0 y0 angle bx by_ : double) : outcome grid :=
    match p with
    | Cartesian => new_grid (cartesian_nodes columns rows x0 y0 angle bx by_) p
    | Spherical => let! x := spherical_nodes columns rows x0 y0 angle bx by_ in new_grid x p
    | SphericalAccurate => Throw NotImplementedErr
    end.

  (** The constructor and Compute with numbers of rows and columns, Rectangular.cpp:48-85 *)
  Definition rectangular (p : projection) (columns rows : Z) (x0 y0 angle bx by_ : double) : outcome grid :=
    match p with
    | SphericalAccurate => Throw NotImplementedErr
    | _ =>
        let! _ := check_greater int_ops columns 0%Z in
        let! _ := check_greater int_ops rows 0%Z in
        let! _ := check_in_open double_ops angle (double_of (-90) 0) (double_of 90 0) in
        let! _ := check_greater double_ops bx (double_of 0 0) in
        let! _ := check_greater double_ops by_ (double_of 0 0) in
        make_grid p (Z.to_nat columns) (Z.to_nat rows) x0 y0 angle bx by_
    end.

  (** static_cast<int>(std::ceil(x)) *)
  Variable ceiling : double -> Z.

  (** The loop of ComputeNumRows for spherical coordinates, Rectangular.cpp:204-219 *)
  Fixpoint count_rows (fuel : nat) (block latitude highest : double) (k : nat) : option nat :=
    if SFltb latitude highest then
      match fuel with
      | 0 => None
      | S fuel =>
          let latitude := next_latitude block latitude in
          if is_equal (mag latitude) (double_of 90 0) then Some (k + 1) else count_rows fuel block latitude highest (k + 1)
      end
    else Some k.

  (** ComputeNumRows, Rectangular.cpp:188-220; a loop that does not end is UB *)
  Definition num_rows (fuel : nat) (lowest highest block : double) (p : projection) : outcome Z :=
    let height := SFabs (fsub highest lowest) in
    if SFltb height block then Throw AlgorithmErr
    else match p with
         | Cartesian => Ok (Z.max (ceiling (fdiv height block)) 1)
         | _ => match count_rows fuel block lowest highest 0 with Some k => Ok (Z.of_nat k) | None => UB end
         end.

  (** The constructor and Compute on an extension, Rectangular.cpp:297-341.  A spherical grid of no rows has one line of nodes *)
  Definition on_extension (fuel : nat) (p : projection) (x0 y0 bx by_ x1 y1 : double) : outcome grid :=
    match p with
    | SphericalAccurate => Throw NotImplementedErr
    | _ =>
        let! _ := check_greater double_ops bx (double_of 0 0) in
        let! _ := check_greater double_ops by_ (double_of 0 0) in
        let columns := ceiling (fdiv (fsub x1 x0) bx) in
        if (columns <=? 0)%Z then Throw AlgorithmErr
        else
          let! rows := num_rows fuel y0 y1 by_ p in
          make_grid p (Z.to_nat columns) (Z.to_nat rows) x0 y0 (double_of 0 0) bx by_
    end.

  (** The last part of Compute for a polygon, Rectangular.cpp:267-295: the grid, then its nodes outside the polygon deleted *)
  Definition in_polygon (inside : point -> outcome bool) (p : projection) (columns rows : nat) (x0 y0 angle bx by_ : double) : outcome grid :=
    let! g := make_grid p columns rows x0 y0 angle bx by_ in delete_outside inside g.
End Rectangular.
