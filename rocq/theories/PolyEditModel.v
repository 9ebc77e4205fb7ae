(** Refining, snapping and offsetting polygons.
    Source: /repo/libs/MeshKernel/src/Polygon.cpp, PolygonalEnclosure.cpp and Polygons.cpp.
    Distances, the number of pieces of an edge (std::lround of its length over the refinement distance), nearest points of the land
    boundary, normals and cosines are arguments; a Polygon is its node list.  Not modelled: reserve with its size estimate (a negative
    or zero refinement distance), the bounding boxes. *)
From Verif Require Import Base FloatModel PolyModel.

Definition zero_d : double := double_of 0 0.
Definition one_d : double := double_of 1 0.
Definition half_d : double := double_of 1 (-1).
(** (1.0 - t) * a + t * b with the operators of Point.hpp:346-349, 391-394 *)
Definition between (a b : point) (t : double) : point :=
  Pt (fadd (fmul (fsub one_d t) (px a)) (fmul t (px b))) (fadd (fmul (fsub one_d t) (py a)) (fmul t (py b))).

(** *** Refine *)
Section Refine.
  Variable pieces : point -> point -> Z.

  (** RefineSegment, Polygon.cpp:281-300 *)
  Definition refine_segment (nodes : list point) (acc : list point) (i : nat) : outcome (list point) :=
    let! a := vget nodes i in
    let! b := vget nodes (i + 1) in
    let n := Z.to_nat (pieces a b) in
    Ok (acc ++ a :: map (fun k => between a b (fdiv (double_of (Z.of_nat k) 0) (double_of (Z.of_nat n) 0))) (seq 1 (n - 1))).

  (** Refine, Polygon.cpp:379-445 *)
  Definition refine (nodes : list point) (start stop : nat) : outcome (list point) :=
    if start =? stop then Ok nodes
    else if (length nodes <=? start) || (length nodes <=? stop) then Throw ConstraintErr
    else if start <? stop then
      let! acc := fold_out (refine_segment nodes) (seq start (stop - start)) (firstn start nodes) in
      Ok (acc ++ skipn stop nodes)
    else
      let! acc := fold_out (refine_segment nodes) (seq 0 stop) [] in
      let! acc := fold_out (refine_segment nodes) (seq start (length nodes - 1 - start)) (acc ++ firstn (start - stop) (skipn stop nodes)) in
      let! b := vget nodes (length nodes - 1) in
      Ok (acc ++ [b]).

  (** RefineFirstPolygon with RefinePolygon, Polygons.cpp:140-178 *)
  Definition refine_first (es : list enclosure) (ranges : list (nat * nat)) (start stop : nat) : outcome (list point) :=
    match es with
    | [] => Throw ConstraintErr
    | _ =>
        let! t := polygon_index es ranges start stop in
        match t with
        | (i, a, b) =>
            if length es <=? i then Throw ConstraintErr
            else let! e := vget es i in refine (outer e) a b
        end
    end.
End Refine.

(** *** LinearRefine *)
Section Linear.
  Variable distance : point -> point -> double.
  Notation at_ l i := (nth i l zero_d).

  (** computeAverageLengths, Polygon.cpp:302-310; both vectors always have the same size *)
  Definition averages (cum : list double) : outcome (list double) :=
    let n := length cum in
    if n <? 2 then UB
    else Ok (map (fun i => if i =? 0 then fsub (at_ cum 1) (at_ cum 0)
                           else if i =? n - 1 then fsub (at_ cum (n - 1)) (at_ cum (n - 2))
                           else fmul half_d (fsub (at_ cum (i + 1)) (at_ cum (i - 1)))) (seq 0 n)).

  (** std::accumulate and the half of both ends, Polygon.cpp:314-316, 546-547 *)
  Definition target_length (avg : list double) : double :=
    fsub (fold_left fadd avg zero_d) (fmul half_d (fadd (at_ avg 0) (at_ avg (length avg - 1)))).

  (** smoothCumulativeDistance, Polygon.cpp:312-325 *)
  Definition smooth_cumulative (avg cum : list double) : list double :=
    let n := length cum in
    let dfac := fdiv (at_ cum (n - 1)) (target_length avg) in
    let partial i := fold_left (fun s k => fadd s (fmul half_d (fadd (at_ avg (k - 1)) (at_ avg k)))) (seq 1 i) zero_d in
    map (fun i => if (0 <? i) && (i + 1 <? n) then fmul (partial i) dfac else at_ cum i) (seq 0 n).

  (** smoothAverageLengths, Polygon.cpp:327-342 (never called with fewer than two distances) *)
  Definition smooth_averages (cum : list double) (first last_ : double) : list double :=
    let back := at_ cum (length cum - 1) in
    map (fun c => let f := fdiv c back in fadd (fmul (fsub one_d f) first) (fmul f last_)) cum.

  (** interpolatePointOnPolyline, Polygon.cpp:344-377 *)
  Fixpoint first_beyond (cum : list double) (d : double) (i : nat) : option nat :=
    match cum with
    | [] => None
    | c :: t => if SFltb d c then Some i else first_beyond t d (i + 1)
    end.
  Definition interpolate (points : list point) (cum : list double) (d : double) : outcome point :=
    match cum with
    | [] => Throw ConstraintErr
    | _ =>
        match match first_beyond cum d 0 with Some i => i | None => length cum - 1 end with
        | 0 => UB
        | S i =>
            let dt := fsub (at_ cum (S i)) (at_ cum i) in
            let t := if negb (SFeqb dt zero_d) then fdiv (fsub d (at_ cum i)) dt else zero_d in
            let! a := vget points i in
            let! b := vget points (S i) in
            Ok (between a b t)
        end
    end.
  Fixpoint interpolate_all (points : list point) (initial cum : list double) : outcome (list point) :=
    match cum with
    | [] => Ok []
    | d :: t => let! p := interpolate points initial d in let! r := interpolate_all points initial t in Ok (p :: r)
    end.

  (** What the loops keep: the points, the distances, the desired and the actual average lengths *)
  Record lstate := LState { l_points : list point; l_cum : list double; l_avg : list double; l_actual : list double }.

  (** The inner loop, Polygon.cpp:536-548 *)
  Fixpoint settle (k : nat) (points : list point) (initial : list double) (first last_ : double) (s : lstate) : outcome lstate :=
    match k with
    | 0 => Ok s
    | S k =>
        let! r := interpolate_all points initial (l_cum s) in
        let! actual := averages (l_cum s) in
        let avg := smooth_averages (l_cum s) first last_ in
        settle k points initial first last_ (LState r (smooth_cumulative avg (l_cum s)) avg actual)
    end.

  (** The extreme ratios, Polygon.cpp:550-574: the least with its index (not the first node), the largest with its index *)
  Definition ratio_step (avg actual : list double) (s : (double * option nat) * (double * option nat)) (i : nat) :=
    let (lo, hi) := s in
    let r := fdiv (at_ actual i) (at_ avg i) in
    (if (0 <? i) && SFltb r (fst lo) then (r, Some i) else lo, if SFltb (fst hi) r then (r, Some i) else hi).
  Definition extreme_ratios (avg actual : list double) :=
    fold_left (ratio_step avg actual) (seq 0 (length avg - 1)) ((dbl_max, None), (dbl_lowest, None)).

  (** Removing or inserting a distance, or stopping, Polygon.cpp:576-609.  The vectors after a resize: shorter, or with a default entry
      at the end *)
  Definition adjust (initial : list double) (s : lstate) : outcome (option lstate) :=
    let n := length (l_cum s) in
    let (lo, hi) := extreme_ratios (l_avg s) (l_actual s) in
    let total := at_ initial (length initial - 1) in
    let target := target_length (l_avg s) in
    let remove := match snd lo with
                  | Some i => if SFltb total (fsub target (fmul (fadd one_d half_d) (at_ (l_avg s) i))) then Some i else None
                  | None => None
                  end in
    match remove with
    | Some i => Ok (Some (LState (firstn (n - 1) (l_points s)) (firstn i (l_cum s) ++ skipn (i + 1) (l_cum s)) (firstn (n - 1) (l_avg s)) (firstn (n - 1) (l_actual s))))
    | None =>
        match snd hi with
        | None => UB
        | Some i =>
            if SFltb (fadd target (fmul half_d (at_ (l_actual s) i))) total then
              Ok (Some (LState (l_points s ++ [missing_point])
                          (firstn (i + 1) (l_cum s) ++ fmul half_d (fadd (at_ (l_cum s) i) (at_ (l_cum s) (i + 1))) :: skipn (i + 1) (l_cum s))
                          (l_avg s ++ [zero_d]) (l_actual s ++ [zero_d])))
            else Ok None
        end
    end.
  (** The outer loop, Polygon.cpp:534-610 *)
  Fixpoint linear_loop (k : nat) (points : list point) (initial : list double) (first last_ : double) (s : lstate) : outcome (list point) :=
    match k with
    | 0 => Ok (l_points s)
    | S k =>
        let! s := settle 20 points initial first last_ s in
        let! t := adjust initial s in
        match t with
        | Some s => linear_loop k points initial first last_ s
        | None => Ok (l_points s)
        end
    end.

  (** The cumulative distances, Polygon.cpp:519-524 *)
  Fixpoint cumulative (d : double) (points : list point) : list double :=
    match points with
    | [] => []
    | a :: t => d :: match t with [] => [] | b :: _ => cumulative (fadd d (distance b a)) t end
    end.

  (** The selected nodes, Polygon.cpp:469-517.  Forwards the sum of the indices never exceeds the last one *)
  Definition selection (nodes : list point) (start stop : nat) : list point :=
    if start <? stop then firstn (stop + 1 - start) (skipn start nodes)
    else skipn start nodes ++ firstn stop (tl nodes).

  (** LinearRefine, Polygon.cpp:447-624 *)
  Definition linear_refine (nodes : list point) (start stop : nat) : outcome (list point) :=
    if length nodes <=? start then Throw ConstraintErr
    else if length nodes <=? stop then Throw ConstraintErr
    else if start =? stop then Ok nodes
    else if length nodes <? 4 then Ok nodes
    else
      let points := selection nodes start stop in
      let initial := cumulative zero_d points in
      let! avg := averages initial in
      let! r := linear_loop (length points) points initial (at_ avg 0) (at_ avg (length avg - 1)) (LState (repeat missing_point (length points)) initial avg (repeat zero_d (length points))) in
      Ok (if start <? stop then firstn start nodes ++ r ++ skipn (stop + 1) nodes
          else firstn (start - stop) (skipn stop nodes) ++ r).
End Linear.

(** *** Snapping *)
Section Snap.
  Variable nearest : point -> point.
  (** TranslateSphericalCoordinates for spherical coordinates, otherwise nothing *)
  Variable translate : list point -> list point.

  (** The loop of SnapToLandBoundary, Polygon.cpp:231-247 *)
  Fixpoint snap_loop (is : list nat) (start stop : nat) (nodes : list point) : outcome (list point) :=
    match is with
    | [] => Ok nodes
    | i :: t =>
        let current := (start + i) mod length nodes in
        let! p := vget nodes current in
        let! nodes := (if is_valid p then vset current (nearest p) nodes else Ok nodes) in
        if current =? stop then Ok nodes else snap_loop t start stop nodes
    end.
  (** SnapToLandBoundary, Polygon.cpp:218-258 *)
  Definition snap_polygon (nodes : list point) (start stop : nat) : outcome (list point) :=
    if length nodes <=? start then Throw ConstraintErr
    else if length nodes <=? stop then Throw ConstraintErr
    else let! r := snap_loop (seq 0 (length nodes)) start stop nodes in Ok (translate r).
End Snap.

(** *** Offset *)
Section Offset.
  Variable normal : point -> point -> point.
  (** The displacement of a node for the sum of normals, with the sign and the factors of the projection, Polygon.cpp:903-924 *)
  Variable displacement : point -> point -> point.

  Definition vec_add (a b : point) : point := Pt (fadd (px a) (px b)) (fadd (py a) (py b)).
  Definition vec_sub (a b : point) : point := Pt (fsub (px a) (px b)) (fsub (py a) (py b)).
  Definition vec_dot (a b : point) : double := fadd (fmul (px a) (px b)) (fmul (py a) (py b)).
  Definition vec_scale (s : double) (a : point) : point := Pt (fmul s (px a)) (fmul s (py a)).
  (** factor * (previousNormal + normal), Polygon.cpp:891-892 *)
  Definition mitre (previous next : point) : point := vec_scale (fdiv one_d (fadd one_d (vec_dot previous next))) (vec_add previous next).

  (** The first loop of ComputeOffset, Polygon.cpp:875-895; [first] is firstNormal *)
  Fixpoint mitres (nodes : list point) (is : list nat) (first previous : point) : outcome (list point) :=
    match is with
    | [] => Ok []
    | i :: t =>
        let! next := (if i <? length nodes - 1
                      then let! a := vget nodes i in let! b := vget nodes (i + 1) in Ok (normal a b)
                      else Ok first) in
        let first := if i =? 0 then next else first in
        let! r := mitres nodes t first next in
        Ok (mitre previous next :: r)
    end.
  (** ComputeOffset, Polygon.cpp:865-932; a polygon of fewer than two nodes is read outside *)
  Definition offset_polygon (nodes : list point) (both : bool) : outcome (list point) :=
    if length nodes <? 2 then UB
    else
      let! a := vget nodes (length nodes - 2) in
      let! b := vget nodes 0 in
      let! ms := mitres nodes (seq 0 (length nodes)) (Pt zero_d zero_d) (normal a b) in
      let ds := map (fun q => (fst q, displacement (fst q) (snd q))) (combine nodes ms) in
      Ok (map (fun q => vec_add (fst q) (snd q)) ds ++ (if both then missing_point :: map (fun q => vec_sub (fst q) (snd q)) ds else [])).

  (** Writing points one after the other *)
  Fixpoint write_points (ps : list point) (at_ : nat) (target : list point) : outcome (list point) :=
    match ps with
    | [] => Ok target
    | p :: t => let! target := vset at_ p target in write_points t (at_ + 1) target
    end.

  (** The loops of Polygons::OffsetCopy, Polygons.cpp:201-226: for every hole the points of the outer ring are written again, from
      [holes_at] on *)
  Fixpoint offset_holes (inner : list (list point)) (both : bool) (ring : list point) (holes_at : nat) (target : list point) : outcome (nat * list point) :=
    match inner with
    | [] => Ok (holes_at, target)
    | h :: t =>
        let! _ := offset_polygon h both in
        let! target := write_points ring holes_at target in
        offset_holes t both ring (holes_at + length ring) target
    end.
  Fixpoint offset_enclosures (es : list enclosure) (both : bool) (rings_at holes_at : nat) (target : list point) : outcome (list point) :=
    match es with
    | [] => Ok target
    | e :: t =>
        let! ring := offset_polygon (outer e) both in
        let! target := write_points ring rings_at target in
        let! r := offset_holes (inner e) both ring holes_at target in
        offset_enclosures t both (rings_at + length ring) (fst r) (snd r)
    end.
  (** OffsetCopy, Polygons.cpp:191-231 *)
  Definition offset_polygons (es : list enclosure) (both : bool) : outcome (list enclosure * list (nat * nat)) :=
    let total := number_of_nodes es in
    let! points := offset_enclosures es both 0 total (repeat missing_point (total + (if both then total + 1 else 0))) in
    make_polygons points.

  (** The loop over the holes in PolygonalEnclosure::OffsetCopy, PolygonalEnclosure.cpp:214-235, with CopyPoints (179-191) *)
  Definition slice (l : list point) (a b : nat) : list point := firstn (b - a) (skipn a l).
  Fixpoint enclosure_holes (inner : list (list point)) (both : bool) (at_ : nat) (out : list point * list point) : outcome (list point * list point) :=
    match inner with
    | [] => Ok out
    | h :: t =>
        let! r := offset_polygon h both in
        let! o := write_points (separator_point :: slice r 0 (length h)) at_ (fst out) in
        let! i := (if both then write_points (separator_point :: slice r (length h + 1) (2 * length h + 1)) at_ (snd out) else Ok (snd out)) in
        enclosure_holes t both (at_ + 1 + length h) (o, i)
    end.
  (** PolygonalEnclosure::OffsetCopy, PolygonalEnclosure.cpp:193-244; both counters always agree *)
  Definition offset_enclosure (e : enclosure) (both : bool) : outcome (enclosure * option enclosure) :=
    let size := length (outer e) + length (concat (inner e)) + length (inner e) in
    let! r := offset_polygon (outer e) both in
    let! o := write_points (slice r 0 (length (outer e))) 0 (repeat missing_point size) in
    let! i := (if both then write_points (slice r (length (outer e) + 1) (2 * length (outer e) + 1)) 0 (repeat missing_point size) else Ok []) in
    let! out := enclosure_holes (inner e) both (length (outer e)) (o, i) in
    let! a := make_enclosure (fst out) in
    if both then let! b := make_enclosure (snd out) in Ok (a, Some b) else Ok (a, None).
End Offset.
