(** Conversion of a mesh to a curvilinear grid.  Source: /repo/libs/MeshKernel/src/Mesh2DToCurvilinear.cpp ("M2C.cpp") and Mesh2DToCurvilinear.hpp ("M2C.hpp"),
    Mesh.cpp, Mesh.hpp, Entities.hpp, Constants.hpp.

    Simplifications.  The face nearest to the given point (FindLocationIndex on the search tree) and the test whether the point lies in that face (Polygon::Contains)
    are arguments.  The growing matrix is a function together with its index ranges; what lies outside the ranges cannot be read.  Integers do not overflow.  An
    entry of the 2 by 2 matrix of the nodes of a face that was not written may not be read. *)
From Verif Require Import Base FloatModel MeshModel FaceModel SplitModel.

Local Open Scope Z_scope.

(** constants::missing::intValue, Constants.hpp:57 *)
Definition missing_int : Z := -999.

(** MatrixWithNegativeIndices, M2C.hpp:56-175 *)
Record growing := Growing { g_lo_j : Z; g_lo_i : Z; g_hi_j : Z; g_hi_i : Z; g_at : Z -> Z -> option nat }.
Definition in_range (g : growing) (j i : Z) : bool := (g_lo_j g <=? j) && (j <=? g_hi_j g) && (g_lo_i g <=? i) && (i <=? g_hi_i g).
(** One entry that was never written, M2C.hpp:169-173 *)
Definition fresh (garbage : option nat) : growing := Growing 0 0 0 0 (fun _ _ => garbage).
(** getValue and IsValid, M2C.hpp:63-90 *)
Definition map_get (g : growing) (j i : Z) : outcome (option nat) := if in_range g j i then Ok (g_at g j i) else UB.
(** setValue, M2C.hpp:75-80 *)
Definition map_set (g : growing) (j i : Z) (n : nat) : outcome growing :=
  if in_range g j i then Ok (Growing (g_lo_j g) (g_lo_i g) (g_hi_j g) (g_hi_i g) (fun j' i' => if (j' =? j) && (i' =? i) then Some n else g_at g j' i')) else UB.
(** resize, M2C.hpp:139-167 *)
Definition map_resize (g : growing) (lo_j lo_i hi_j hi_i : Z) : growing :=
  Growing (Z.min (g_lo_j g) lo_j) (Z.min (g_lo_i g) lo_i) (Z.max (g_hi_j g) hi_j) (Z.max (g_hi_i g) hi_i) (fun j i => if in_range g j i then g_at g j i else None).

(** Mesh::FindCommonNode, Mesh.cpp:592-614 *)
Definition find_common (m : mesh) (a b : nat) : outcome (option nat) :=
  let! x := vget (m_edges m) a in
  let! y := vget (m_edges m) b in
  match x, y with
  | (Some x1, Some x2), (Some y1, Some y2) =>
      Ok (if ((x1 =? y1) || (x1 =? y2))%nat then Some x1 else if ((x2 =? y1) || (x2 =? y2))%nat then Some x2 else None)
  | _, _ => Throw StdErr
  end.

(** m_i, m_j and m_mapping, M2C.hpp:196-197,216 *)
Record conversion := Conversion { c_i : list Z; c_j : list Z; c_map : growing }.

(** Reading m_i and m_j at a node that may be missing *)
Definition position_of (s : conversion) (n : option nat) : outcome (Z * Z) :=
  let! i := vget_idx (c_i s) n in let! j := vget_idx (c_j s) n in Ok (i, j).
(** Writing m_i and m_j, M2C.cpp:88-106 and 257-260 *)
Definition set_position (s : conversion) (n : option nat) (i j : Z) : outcome conversion :=
  match n with
  | None => UB
  | Some n => let! is := vset n i (c_i s) in let! js := vset n j (c_j s) in Ok (Conversion is js (c_map s))
  end.
Definition set_mapping (s : conversion) (n : option nat) (i j : Z) : outcome conversion :=
  match n with None => UB | Some n => let! g := map_set (c_map s) j i n in Ok (Conversion (c_i s) (c_j s) g) end.

(** ComputeLocalNodeMapping, M2C.cpp:144-181; the first argument of the result is the row of the 2 by 2 matrix *)
Definition local_mapping (f : faces) (s : conversion) (face : nat) : outcome (bool -> bool -> option nat) :=
  let! ns := vget (faces_nodes f) face in
  let! n0 := vget ns 0 in let! n1 := vget ns 1 in let! n2 := vget ns 2 in let! n3 := vget ns 3 in
  let! (i0, j0) := position_of s (Some n0) in let! (i1, j1) := position_of s (Some n1) in
  let! (i2, j2) := position_of s (Some n2) in let! (i3, j3) := position_of s (Some n3) in
  let min_i := Z.min (Z.min i0 i1) (Z.min i2 i3) in
  let min_j := Z.min (Z.min j0 j1) (Z.min j2 j3) in
  let pick a b := fold_left (fun r x => if (snd (fst x) =? min_i + a) && (snd x =? min_j + b) then Some (fst (fst x)) else r)
                            [(n0, i0, j0); (n1, i1, j1); (n2, i2, j2); (n3, i3, j3)] None in
  Ok (fun a b => pick (Z.b2z a) (Z.b2z b)).

(** CheckGridLine, M2C.cpp:300-323 *)
Fixpoint check_row (m : mesh) (f : faces) (valid candidate : nat) (row : list (option nat)) : outcome bool :=
  match row with
  | [] => Ok false
  | e :: row =>
      let! ed := get_edge m e in
      let! ef := vget_idx (edges_faces f) e in
      let! k := vget_idx (num_faces_nodes f) (fst ef) in
      let! num := vget_idx (edges_num_faces f) e in
      let! check := if (num =? 2)%nat then if (k =? 4)%nat then Ok true else let! k := vget_idx (num_faces_nodes f) (snd ef) in Ok (k =? 4)%nat else Ok (k =? 4)%nat in
      if check && eq_idx (other_node ed candidate) (Some valid) then Ok true else check_row m f valid candidate row
  end.
Definition check_line (m : mesh) (f : faces) (valid candidate : nat) : outcome bool :=
  let! row := vget (m_nodesEdges m) candidate in check_row m f valid candidate row.

(** IsConnectionValid, M2C.cpp:269-298 *)
Definition check_at (m : mesh) (f : faces) (g : growing) (candidate : nat) (j i : Z) : outcome bool :=
  let! n := map_get g j i in match n with None => Ok true | Some n => check_line m f n candidate end.
Definition connection_valid (m : mesh) (f : faces) (s : conversion) (candidate : option nat) (i j : Z) : outcome (bool * conversion) :=
  match candidate with
  | None => UB
  | Some c =>
      let g := map_resize (c_map s) (j - 1) (i - 1) (j + 1) (i + 1) in
      let s := Conversion (c_i s) (c_j s) g in
      let! at_left := check_at m f g c j (i - 1) in
      if negb at_left then Ok (false, s) else
      let! at_right := check_at m f g c j (i + 1) in
      if negb at_right then Ok (false, s) else
      let! below := check_at m f g c (j - 1) i in
      if negb below then Ok (false, s) else
      let! above := check_at m f g c (j + 1) i in
      Ok (above, s)
  end.

(** m_nodeFrom, m_nodeTo and m_directionsDeltas, M2C.hpp:199-212 *)
Record direction := Direction { d_from : bool * bool; d_to : bool * bool; d_i : Z; d_j : Z }.
Definition directions : list direction :=
  [Direction (false, false) (false, true) (-1) 0; Direction (false, false) (true, false) 0 (-1);
   Direction (true, false) (true, true) 1 0; Direction (true, true) (false, true) 0 1].

(** A position that is already known and differs, M2C.cpp:239-242 *)
Definition differs (known new : Z) : bool := negb (known =? missing_int) && negb (known =? new).

(** ComputeNeighbouringFaceNodes, M2C.cpp:183-267 *)
Definition neighbouring (m : mesh) (f : faces) (face : nat) (local : bool -> bool -> option nat) (d : direction) (visited : list bool) (s : conversion)
  : outcome (option nat * conversion) :=
  match local (fst (d_from d)) (snd (d_from d)), local (fst (d_to d)) (snd (d_to d)) with
  | Some first, Some second =>
      let! e := find_edge m (Some first) (Some second) in
      match e with
      | None => Ok (None, s)
      | Some e =>
          let! num := vget (edges_num_faces f) e in
          if (num <? 2)%nat then Ok (None, s) else
          let! ef := vget (edges_faces f) e in
          let new := across ef (Some face) in
          let! seen := vget_idx visited new in
          if (seen : bool) then Ok (None, s) else
          let! k := vget_idx (num_faces_nodes f) new in
          if negb (k =? 4)%nat then Ok (None, s) else
          let! es := vget_idx (faces_edges f) new in
          let here := match position e (firstn 4 es) with Some k => k | None => 0%nat end in
          let! next := vget es (if S here =? 4 then 0 else S here)%nat in
          let! first_common := find_common m e next in
          let! ed := get_edge m (Some next) in
          let! (i1, j1) := position_of s first_common in
          let first_other := match first_common with Some n => other_node ed n | None => None end in
          let! previous := vget es (match here with O => 3 | S k => k end)%nat in
          let! second_common := find_common m e previous in
          let! ed := get_edge m (Some previous) in
          let! (i2, j2) := position_of s second_common in
          let second_other := match second_common with Some n => other_node ed n | None => None end in
          let i1 := i1 + d_i d in let j1 := j1 + d_j d in let i2 := i2 + d_i d in let j2 := j2 + d_j d in
          let! (k1, l1) := position_of s first_other in
          let! (k2, l2) := position_of s second_other in
          if differs k1 i1 || differs l1 j1 || differs k2 i2 || differs l2 j2 then Ok (None, s) else
          let! (valid, s) := connection_valid m f s first_other i1 j1 in
          if negb valid then Ok (None, s) else
          let! (valid, s) := connection_valid m f s second_other i2 j2 in
          if negb valid then Ok (None, s) else
          let! s := set_position s first_other i1 j1 in
          let! s := set_position s second_other i2 j2 in
          let! s := set_mapping s first_other i1 j1 in
          let! s := set_mapping s second_other i2 j2 in
          Ok (new, s)
      end
  | _, _ => UB
  end.

(** The front, M2C.cpp:112-139.  [None]: the fuel is used up. *)
Definition advance (m : mesh) (f : faces) (face : nat) (local : bool -> bool -> option nat) (visited : list bool) (st : list nat * conversion) (d : direction)
  : outcome (list nat * conversion) :=
  let! (new, s) := neighbouring m f face local d visited (snd st) in
  Ok (match new with Some n => fst st ++ [n] | None => fst st end, s).
Fixpoint grow (m : mesh) (f : faces) (fuel : nat) (queue : list nat) (visited : list bool) (s : conversion) : outcome (option (list bool * conversion)) :=
  match queue with
  | [] => Ok (Some (visited, s))
  | face :: queue =>
      match fuel with
      | O => Ok None
      | S fuel =>
          let! seen := vget visited face in
          if (seen : bool) then grow m f fuel queue visited s
          else
            let! visited := vset face true visited in
            let! k := vget (num_faces_nodes f) face in
            if negb (k =? 4)%nat then grow m f fuel queue visited s
            else
              let! local := local_mapping f s face in
              let! (queue, s) := fold_out (advance m f face local visited) directions (queue, s) in
              grow m f fuel queue visited s
      end
  end.

(** ComputeCurvilinearMatrix, M2C.cpp:325-351.  Without valid values the iterators dereferenced are past the end. *)
Definition valid_values (l : list Z) : list Z := filter (fun x => negb (x =? missing_int)) l.
Definition min_of (l : list Z) : outcome Z := match l with [] => UB | x :: l => Ok (fold_left Z.min l x) end.
Definition max_of (l : list Z) : outcome Z := match l with [] => UB | x :: l => Ok (fold_left Z.max l x) end.
Definition put_point (m : mesh) (s : conversion) (min_i min_j : Z) (rows : list (list point)) (n : nat) : outcome (list (list point)) :=
  let! j := vget (c_j s) n in
  let! i := vget (c_i s) n in
  if negb (j =? missing_int) && negb (i =? missing_int) then
    if (j <? min_j) || (i <? min_i) then UB else
    let! p := node_at m (Some n) in
    let! row := vget rows (Z.to_nat (j - min_j)) in
    let! row := vset (Z.to_nat (i - min_i)) p row in
    vset (Z.to_nat (j - min_j)) row rows
  else Ok rows.
Definition curvilinear_matrix (m : mesh) (s : conversion) : outcome (list (list point)) :=
  let! min_i := min_of (valid_values (c_i s)) in
  let! max_i := max_of (valid_values (c_i s)) in
  let! min_j := min_of (valid_values (c_j s)) in
  let! max_j := max_of (valid_values (c_j s)) in
  let num_m := Z.to_nat (max_i - min_i + 1) in
  let num_n := Z.to_nat (max_j - min_j + 1) in
  fold_out (put_point m s min_i min_j) (seq 0 (length (m_nodes m))) (repeat (repeat missing_point num_m) num_n).

(** Compute, M2C.cpp:50-142, with the nearest face [start].  [g]: the growing matrix of the converter, [fresh] for a new one. *)
Definition first_position (m : mesh) (s : conversion) (a b : nat) (i j : Z) : outcome conversion :=
  let! n := find_common m a b in
  let! s := set_position s n i j in
  set_mapping s n i j.
Definition first_cell (m : mesh) (f : faces) (start : nat) (g : growing) : outcome conversion :=
  let! es := vget (faces_edges f) start in
  let s := Conversion (repeat missing_int (length (m_nodes m))) (repeat missing_int (length (m_nodes m))) (map_resize g (-3) (-3) 3 3) in
  let! e0 := vget es 0 in let! e1 := vget es 1 in let! e2 := vget es 2 in let! e3 := vget es 3 in
  let! s := first_position m s e0 e1 0 0 in
  let! s := first_position m s e1 e2 1 0 in
  let! s := first_position m s e2 e3 1 1 in
  first_position m s e3 e0 0 1.
Definition front (m : mesh) (f : faces) (start : nat) (g : growing) : outcome (option (list bool * conversion)) :=
  let! s := first_cell m f start g in
  grow m f (S (4 * num_faces f)) [start] (repeat false (num_faces f)) s.
Definition compute (m : mesh) (f : faces) (start : nat) (inside : list point -> bool) (g : growing) : outcome (option (list (list point) * growing)) :=
  let! k := vget (num_faces_nodes f) start in
  if negb (k =? 4)%nat then Throw AlgorithmErr else
  let! ns := vget (faces_nodes f) start in
  let! n0 := vget ns 0 in let! n1 := vget ns 1 in let! n2 := vget ns 2 in let! n3 := vget ns 3 in
  let! p0 := node_at m (Some n0) in let! p1 := node_at m (Some n1) in let! p2 := node_at m (Some n2) in let! p3 := node_at m (Some n3) in
  if negb (inside [p0; p1; p2; p3; p0]) then Throw AlgorithmErr else
  let! r := front m f start g in
  match r with
  | None => Ok None
  | Some (_, s) => let! rows := curvilinear_matrix m s in Ok (Some (rows, c_map s))
  end.

(** The constructor, M2C.cpp:35-48, followed by Compute.  The result is the matrix of the grid; the mesh is left administrated. *)
Definition convert order clockwise (m : mesh) (nearest : mesh -> faces -> nat) (inside : list point -> bool) (garbage : option nat)
  : outcome (option (list (list point)) * mesh) :=
  match m_nodes m with
  | [] => Throw AlgorithmErr
  | _ =>
      let! (m, f) := administrate2d order clockwise m in
      if (num_faces f =? 0)%nat then Throw AlgorithmErr else
      let! r := compute m f (nearest m f) inside (fresh garbage) in
      Ok (match r with Some (rows, _) => Some rows | None => None end, m)
  end.
