(** Point sequences: splitting at separators, geometry lists, bounding boxes, polygons with holes.
    Source: /repo/libs/MeshKernel/src/Operations.cpp, Polygon.cpp, PolygonalEnclosure.cpp, Polygons.cpp,
    include/MeshKernel/BoundingBox.hpp and /repo/libs/MeshKernelApi/include/MeshKernelApi/Utils.hpp.
    Coordinates are doubles with the exact operations of FloatModel. *)
From Verif Require Import Base FloatModel.

(** *** Splitting at separators *)

(** The test made by FindIndices and by the conversions of geometry lists: only the x coordinate is looked at. *)
Definition is_sep (separator : double) (p : point) : bool := is_equal (px p) separator.

(** Loop of FindIndices, Operations.cpp:66-79.  [st] is startRange if inRange. *)
Fixpoint find_loop (vec : list point) (separator : double) (ns : list nat) (st : option nat)
  : outcome (list (nat * nat) * option nat) :=
  match ns with
  | [] => Ok ([], st)
  | n :: t =>
      let! p := vget vec n in
      match is_sep separator p, st with
      | false, None => find_loop vec separator t (Some n)
      | true, Some a => let! r := find_loop vec separator t None in Ok ((a, n - 1) :: fst r, snd r)
      | _, _ => find_loop vec separator t st
      end
  end.

(** FindIndices, Operations.cpp:46-84 *)
Definition find_indices (vec : list point) (start stop : nat) (separator : double) : outcome (list (nat * nat)) :=
  match vec with
  | [] => Ok []
  | _ =>
      if (length vec <? start) || (length vec <? stop) then Ok []
      else
        let! r := find_loop vec separator (seq start (stop - start)) None in
        Ok (fst r ++ match snd r with Some a => [(a, length vec - 1)] | None => [] end)
  end.

(** InvalidPointCount, Operations.cpp:86-114 (whole vector) *)
Definition invalid_count (points : list point) : nat := length (filter (fun p => negb (is_valid p)) points).

(** *** Geometry lists, Utils.hpp of the API.  num_coordinates is taken to be non-negative. *)
Record geometry_list := Geometry { gnum : nat; gx : list double; gy : list double }.

Definition gpoint (g : geometry_list) (i : nat) : outcome point :=
  let! x := vget (gx g) i in
  let! y := vget (gy g) i in
  Ok (Pt x y).

(** operator== of points, Point.hpp:411-414; the same test as in ConvertGeometryListToPointVector, Utils.hpp:69-70 *)
Definition point_eq (p q : point) : bool := is_equal (px p) (px q) && is_equal (py p) (py q).

(** ConvertGeometryListToPointVector, Utils.hpp:57-77; [last] is result.back() *)
Fixpoint to_points_loop (g : geometry_list) (is : list nat) (last : point) : outcome (list point) :=
  match is with
  | [] => Ok []
  | i :: t =>
      let! p := gpoint g i in
      if point_eq p last then to_points_loop g t last
      else let! r := to_points_loop g t p in Ok (p :: r)
  end.
Definition to_points (g : geometry_list) : outcome (list point) :=
  if gnum g =? 0 then Ok []
  else
    let! p := gpoint g 0 in
    let! r := to_points_loop g (seq 1 (gnum g - 1)) p in
    Ok (p :: r).

(** ConvertGeometryListToVectorOfPointVectors, Utils.hpp:83-109.  [chunk] is kept in reverse. *)
Fixpoint to_polylines_loop (g : geometry_list) (separator : double) (is : list nat) (chunk : list point)
  : outcome (list (list point)) :=
  match is with
  | [] => Ok (match chunk with [] => [] | _ => [rev chunk] end)
  | i :: t =>
      let! p := gpoint g i in
      if is_equal (px p) separator then
        let! r := to_polylines_loop g separator t [] in Ok (rev chunk :: r)
      else to_polylines_loop g separator t (p :: chunk)
  end.
Definition to_polylines (g : geometry_list) (separator : double) : outcome (list (list point)) :=
  to_polylines_loop g separator (seq 0 (gnum g)) [].

(** ConvertPointVectorToGeometryList, Utils.hpp:184-196 *)
Definition from_points (pts : list point) (g : geometry_list) : outcome geometry_list :=
  if length pts <? gnum g then Throw StdErr
  else
    fold_out (fun g i =>
      let! p := vget pts i in
      let! xs := vset i (px p) (gx g) in
      let! ys := vset i (py p) (gy g) in
      Ok (Geometry (gnum g) xs ys)) (seq 0 (gnum g)) g.

(** *** Bounding boxes, BoundingBox.hpp *)
Record bbox := Box { lower : point; upper : point }.

(** std::numeric_limits<double>::max() and lowest() *)
Definition dbl_max : double := double_of (2 ^ 53 - 1) 971.
Definition dbl_lowest : double := SFopp dbl_max.

(** std::max(a, b): the first argument unless it is smaller than the second. *)
Definition fmax (a b : double) : double := if SFltb a b then b else a.

(** BoundingBox(), 43-44 *)
Definition everything : bbox := Box (Pt dbl_lowest dbl_lowest) (Pt dbl_max dbl_max).
(** CreateNonOverlappingBoundingBox, 222-227 *)
Definition non_overlapping : bbox := Box (Pt dbl_max dbl_max) (Pt dbl_lowest dbl_lowest).

(** Body of the loop of Reset, 196-208 *)
Definition extend_box (b : bbox) (p : point) : bbox :=
  if is_valid p then
    Box (Pt (fmin (px (lower b)) (px p)) (fmin (py (lower b)) (py p)))
        (Pt (fmax (px (upper b)) (px p)) (fmax (py (upper b)) (py p)))
  else b.

(** Reset(points, start, end), 189-212: the slice is start..end inclusive *)
Definition box_of_slice (points : list point) (start stop : nat) : outcome bbox :=
  fold_out (fun b i => let! p := vget points i in Ok (extend_box b p)) (seq start (stop + 1 - start)) non_overlapping.

(** Reset(points), 174-187 *)
Definition box_of (points : list point) : outcome bbox :=
  if 0 <? length points then box_of_slice points 0 (length points - 1) else Ok everything.

(** Contains, 101-107 *)
Definition box_contains (b : bbox) (p : point) : bool :=
  SFleb (px (lower b)) (px p) && SFleb (px p) (px (upper b)) &&
  SFleb (py (lower b)) (py p) && SFleb (py p) (py (upper b)).

(** Overlaps, 234-247 *)
Definition overlaps (b o : bbox) : bool :=
  negb (SFltb (px (upper b)) (px (lower o)) || SFltb (px (upper o)) (px (lower b)) ||
        SFltb (py (upper b)) (py (lower o)) || SFltb (py (upper o)) (py (lower b))).

(** Merge, 214-220 *)
Definition merge_boxes (b1 b2 : bbox) : bbox :=
  Box (Pt (fmin (px (lower b1)) (px (lower b2))) (fmin (py (lower b1)) (py (lower b2))))
      (Pt (fmax (px (upper b1)) (px (upper b2))) (fmax (py (upper b1)) (py (upper b2)))).

(** CreateBoundingBox, 150-159 *)
Definition box_of_two (p q : point) : bbox :=
  Box (Pt (fmin (px p) (px q)) (fmin (py p) (py q))) (Pt (fmax (px p) (px q)) (fmax (py p) (py q))).

(** *** Polygons with holes.  A Polygon is its node list; the projection is not modelled here. *)

(** Polygon::Initialise, Polygon.cpp:22-41 *)
Definition make_polygon (pts : list point) : outcome (list point) :=
  if (0 <? length pts) && (length pts <? 4) then Throw ConstraintErr
  else if match pts with [] => false | p :: _ => negb (point_eq p (last pts p)) end then Throw ConstraintErr
  else if 0 <? invalid_count pts then Throw ConstraintErr
  else Ok pts.

(** PolygonalEnclosure::ConstructPolygon, PolygonalEnclosure.cpp:20-46: the points start..end inclusive *)
Definition construct_polygon (points : list point) (start stop : nat) : outcome (list point) :=
  if stop <? start then Throw ConstraintErr
  else if length points <=? stop then Throw ConstraintErr
  else make_polygon (firstn (stop + 1 - start) (skipn start points)).

Record enclosure := Enclosure { outer : list point; inner : list (list point) }.

Fixpoint construct_inner (points : list point) (ranges : list (nat * nat)) : outcome (list (list point)) :=
  match ranges with
  | [] => Ok []
  | (a, b) :: t =>
      let! p := construct_polygon points a b in
      let! r := construct_inner points t in
      Ok (p :: r)
  end.

(** PolygonalEnclosure::PolygonalEnclosure, PolygonalEnclosure.cpp:6-18, with ConstructOuterPolygon (48-64) and
    ConstructInnerPolygons (66-83).  points.size() - 1 for an empty vector cannot occur (see make_polygons). *)
Definition make_enclosure (points : list point) : outcome enclosure :=
  let! ranges := find_indices points 0 (length points - 1) separator_double in
  let stop := match ranges with (_, b) :: _ :: _ => b | _ => length points - 1 end in
  let! o := construct_polygon points 0 stop in
  let! i := construct_inner points (tl ranges) in
  Ok (Enclosure o i).

(** Loop of Polygons::Polygons, Polygons.cpp:47-83: the enclosures and the outer index ranges (m_outer_polygons_indices, whose
    second entry is shifted to the end of the outer ring if there are holes). *)
Fixpoint make_enclosures (polygon : list point) (ranges : list (nat * nat)) : outcome (list enclosure * list (nat * nat)) :=
  match ranges with
  | [] => Ok ([], [])
  | (a, b) :: t =>
      let! inner_ranges := find_indices polygon a b separator_double in
      let! e := make_enclosure (firstn (b + 1 - a) (skipn a polygon)) in
      let stop := match inner_ranges with _ :: (c, _) :: _ => c - 2 | _ => b end in
      let! r := make_enclosures polygon t in
      Ok (e :: fst r, (a, stop) :: snd r)
  end.
Definition make_polygons (polygon : list point) : outcome (list enclosure * list (nat * nat)) :=
  let! ranges := find_indices polygon 0 (length polygon) missing_double in
  make_enclosures polygon ranges.

(** Polygons::GatherAllEnclosureNodes, Polygons.cpp:379-407 *)
Definition separator_point : point := Pt separator_double separator_double.
Definition gather_one (e : enclosure) : list point :=
  outer e ++ flat_map (fun i => separator_point :: i) (inner e).
Fixpoint gather (es : list enclosure) : list point :=
  match es with
  | [] => []
  | [e] => gather_one e
  | e :: t => gather_one e ++ missing_point :: gather t
  end.

(** m_numberOfNodes as computed by the constructor, Polygons.cpp:88-102 *)
Fixpoint number_of_nodes (es : list enclosure) : nat :=
  match es with
  | [] => 0
  | e :: t =>
      length (outer e) + length (concat (inner e)) + length (inner e) + (match t with [] => 0 | _ => 1 end) + number_of_nodes t
  end.

(** Polygons::PolygonIndex, Polygons.cpp:248-288: polygon, start and end node local to it.  The case start = end = 0 first sets the
    end index to the last node of the first outer ring. *)
Fixpoint polygon_index_loop (ranges : list (nat * nat)) (i start stop : nat) : outcome (nat * nat * nat) :=
  match ranges with
  | [] => Throw ConstraintErr
  | (a, b) :: t =>
      if (a <=? start) && (stop <=? b) then Ok (i, start - a, stop - a) else polygon_index_loop t (i + 1) start stop
  end.
Definition polygon_index (es : list enclosure) (ranges : list (nat * nat)) (start stop : nat) : outcome (nat * nat * nat) :=
  match es with
  | [] => Throw ConstraintErr
  | e :: _ =>
      let stop' := if (start =? 0) && (stop =? 0) then length (outer e) - 1 else stop in
      polygon_index_loop ranges 0 start stop'
  end.

(** *** Containment in polygons with holes; [contains] is Polygon::Contains. *)
Inductive region := RNone | RExterior | RInterior.

Section Region.
  Variable contains : list point -> point -> bool.

  (** PolygonalEnclosure::ContainsRegion, PolygonalEnclosure.cpp:103-128 *)
  Definition contains_region (e : enclosure) (p : point) : region :=
    if is_valid p && contains (outer e) p then
      if existsb (fun i => contains i p) (inner e) then RInterior else RExterior
    else RNone.

  (** Polygons::IsPointInPolygons, Polygons.cpp:306-331: the answer and the index of the enclosure *)
  Fixpoint in_polygons_loop (es : list enclosure) (i : nat) (p : point) : bool * option nat :=
    match es with
    | [] => (false, None)
    | e :: t =>
        match contains_region e p with
        | RExterior => (true, Some i)
        | RInterior => (false, None)
        | RNone => in_polygons_loop t (i + 1) p
        end
    end.
  Definition in_polygons (es : list enclosure) (p : point) : bool * option nat :=
    match es with [] => (true, None) | _ => in_polygons_loop es 0 p end.

  (** Polygons::IsPointInAnyPolygon, Polygons.cpp:333-358 *)
  Fixpoint in_any_loop (es : list enclosure) (p : point) : bool :=
    match es with
    | [] => false
    | e :: t =>
        match contains_region e p with
        | RExterior => true
        | RInterior => false
        | RNone => in_any_loop t p
        end
    end.
  Definition in_any_polygon (es : list enclosure) (p : point) : bool :=
    match es with [] => true | _ => in_any_loop es p end.

  (** Polygons::PointsInPolygons, Polygons.cpp:360-371 *)
  Definition points_in_polygons (es : list enclosure) (ps : list point) : list bool := map (fun p => fst (in_polygons es p)) ps.
End Region.
