(** Properties C37, C38, C39, C41, C43: geometry lists, splitting at separators, polygons with holes, bounding boxes. *)
From Verif Require Import Base FloatModel FloatReal PolyModel PolySpec PolyProofs BoxProofs.

(** *** C37 *)

(** C37: writing points into a geometry list fills exactly its declared length and nothing else; too few points are rejected. *)
Theorem C37_write : forall pts g,
  gnum g <= length pts -> gnum g <= length (gx g) -> gnum g <= length (gy g) ->
  exists g', from_points pts g = Ok g' /\ holds g' (firstn (gnum g) pts) /\
    (forall i, gnum g <= i -> nth_error (gx g') i = nth_error (gx g) i /\ nth_error (gy g') i = nth_error (gy g) i).
Proof. exact from_points_spec. Qed.
Theorem C37_write_short : forall pts g, length pts < gnum g -> from_points pts g = Throw StdErr.
Proof. exact from_points_short. Qed.

(** C37: reading gives the points in order, leaving out only points equal to their predecessor. *)
Theorem C37_read : forall g pts, holds g pts ->
  exists out, to_points g = Ok out /\ subsequence out pts /\ no_repeats out /\
    (forall q, In q pts -> exists r, In r out /\ (q = r \/ point_eq q r = true)) /\
    (no_repeats pts -> out = pts).
Proof. exact to_points_spec. Qed.

(** C37: writing and reading back gives the same points if no point equals its predecessor. *)
Theorem C37_round_trip : forall pts g,
  gnum g = length pts -> length pts <= length (gx g) -> length pts <= length (gy g) -> no_repeats pts ->
  exists g', from_points pts g = Ok g' /\ to_points g' = Ok pts.
Proof. exact points_round_trip. Qed.

(** C37: reading polylines gives exactly the separated polylines, and every list is of this form. *)
Theorem C37_polylines : forall g sep ls rest, separated sep ls rest -> holds g (written ls rest) ->
  to_polylines g sep = Ok (map fst ls ++ match rest with [] => [] | _ => [rest] end).
Proof. exact to_polylines_spec. Qed.
Theorem C37_polylines_all : forall sep pts, exists ls rest, separated sep ls rest /\ pts = written ls rest.
Proof. exact lines_exist. Qed.

Example geometry_met :
  let d n := double_of n 0%Z in
  let g := Geometry 3 [d 1; d 1; d 2]%Z [d 5; d 5; d 6]%Z in
  to_points g = Ok [Pt (d 1) (d 5); Pt (d 2) (d 6)]%Z /\
  to_polylines (Geometry 4 [d 1; d (-999); d 2; d 3] [d 1; d (-999); d 2; d 3])%Z missing_double =
    Ok [[Pt (d 1) (d 1)]; [Pt (d 2) (d 2); Pt (d 3) (d 3)]]%Z /\
  from_points [Pt (d 7) (d 8); Pt (d 9) (d 9)]%Z (Geometry 1 [d 1] [d 2])%Z = Ok (Geometry 1 [d 7] [d 8])%Z.
Proof. vm_compute. auto. Qed.

(** *** C38 *)

(** C38: scanning to the end of the sequence returns exactly the maximal runs of non-separators, and these are unique. *)
Theorem C38_runs : forall vec start sep, exists rs,
  find_indices vec start (length vec) sep = Ok rs /\ runs vec sep start (Nat.max start (length vec)) rs.
Proof. exact find_indices_full. Qed.
Theorem C38_runs_unique : forall vec sep s e rs1 rs2, runs vec sep s e rs1 -> runs vec sep s e rs2 -> rs1 = rs2.
Proof. exact runs_unique. Qed.

(** C38: a window outside the sequence gives no ranges. *)
Theorem C38_outside : forall vec start stop sep, length vec < start \/ length vec < stop -> find_indices vec start stop sep = Ok [].
Proof. exact find_indices_outside. Qed.

(** C38, the general window, is false: a run that reaches the end of the window is reported up to the end of the sequence. *)
Theorem C38_window_refuted : ~ (forall vec start stop sep, start <= stop <= length vec ->
  exists rs, find_indices vec start stop sep = Ok rs /\ runs vec sep start stop rs).
Proof. exact window_refuted. Qed.

(** What holds for the general window: all ranges are right except the end of the last one, if the window does not end after a
    separator.  Missing: that end. *)
Theorem C38_window_partial : forall vec start stop sep, start <= length vec -> stop <= length vec -> vec <> [] ->
  exists rs fin, find_indices vec start stop sep = Ok (rs ++ match fin with Some a => [(a, length vec - 1)] | None => [] end) /\
    runs vec sep start (Nat.max start stop) (rs ++ match fin with Some a => [(a, stop - 1)] | None => [] end) /\
    (fin = None -> stop <= start \/ sep_at vec sep (stop - 1)).
Proof. exact find_indices_window. Qed.

Example runs_met : find_indices (gather demo_enclosures) 0 (length (gather demo_enclosures)) missing_double = Ok [(0, 13); (15, 18); (20, 28)].
Proof. vm_compute. reflexivity. Qed.

(** *** C39 *)

(** C39: polygons with holes written to a list and read back are unchanged, together with the positions of their outer rings. *)
Theorem C39_round_trip : forall es, Forall good_enclosure es -> make_polygons (gather es) = Ok (es, outer_ranges 0 es).
Proof. exact make_polygons_gather. Qed.

(** C39: the stored number of nodes is the length of the written list. *)
Theorem C39_number_of_nodes : forall es, number_of_nodes es = length (gather es).
Proof. exact number_of_nodes_gather. Qed.

(** C39: a pair of nodes of one outer ring, given by their positions in the list, is found again. *)
Theorem C39_polygon_index : forall es i e a b, Forall good_enclosure es -> nth_error es i = Some e -> a <= b < length (outer e) ->
  exists o, nth_error (outer_ranges 0 es) i = Some (o, o + length (outer e) - 1) /\
    (forall k p, nth_error (outer e) k = Some p -> nth_error (gather es) (o + k) = Some p) /\
    (o + b <> 0 -> polygon_index es (outer_ranges 0 es) (o + a) (o + b) = Ok (i, a, b)).
Proof. exact polygon_index_ok. Qed.

Example polygons_met : Forall good_enclosure demo_enclosures /\ length (gather demo_enclosures) = 29 /\
  outer_ranges 0 demo_enclosures = [(0, 3); (15, 18); (20, 23)].
Proof. split; [exact demo_good|]. vm_compute. auto. Qed.

(** *** C41.  [contains] is any containment test for a ring. *)

(** C41, the full statement, is false: the search stops at a polygon that has the point in a hole, also if a later polygon of the
    list, an island in the hole, contains it. *)
Theorem C41_island_refuted : ~ (forall contains es p, is_valid p = true -> es <> [] ->
  (fst (in_polygons contains es p) = true <-> exists e, In e es /\ in_enclosure contains e p)).
Proof. exact island_refuted. Qed.

(** What holds: it is true when no polygon has in a hole a point that another polygon contains.  Missing: nested polygons. *)
Theorem C41_regions_partial : forall contains es p, is_valid p = true -> es <> [] ->
  (forall e, In e es -> in_hole contains e p -> forall f, In f es -> ~ in_enclosure contains f p) ->
  (fst (in_polygons contains es p) = true <-> exists e, In e es /\ in_enclosure contains e p).
Proof. exact in_polygons_ok. Qed.

(** C41: the reported polygon is the first one with the point in its outer ring, and has it in no hole; otherwise no polygon has
    the point or the first polygon with the point in its outer ring has it in a hole. *)
Theorem C41_which : forall contains p, is_valid p = true -> forall es i0,
  match in_polygons_loop contains es i0 p with
  | (true, Some i) => exists k e, i = i0 + k /\ nth_error es k = Some e /\ in_enclosure contains e p /\
                        forall j f, j < k -> nth_error es j = Some f -> contains (outer f) p = false
  | (false, None) => (forall e, In e es -> ~ in_enclosure contains e p) \/
                     exists k e, nth_error es k = Some e /\ in_hole contains e p /\
                        forall j f, j < k -> nth_error es j = Some f -> contains (outer f) p = false
  | _ => False
  end.
Proof. exact in_polygons_loop_spec. Qed.

(** C41: the region of one polygon; both list queries agree; an invalid point is in no polygon. *)
Theorem C41_region : forall contains e p, is_valid p = true ->
  (contains_region contains e p = RExterior <-> in_enclosure contains e p) /\
  (contains_region contains e p = RInterior <-> in_hole contains e p) /\
  (contains_region contains e p = RNone <-> contains (outer e) p = false).
Proof. exact region_spec. Qed.
Theorem C41_same_answer : forall contains es p, in_any_polygon contains es p = fst (in_polygons contains es p).
Proof. exact in_any_same. Qed.
Theorem C41_invalid_point : forall contains es p, is_valid p = false -> es <> [] -> in_polygons contains es p = (false, None).
Proof. exact in_polygons_invalid. Qed.

Example regions_met :
  let d n := double_of n 0%Z in let p x := Pt (d x) (d x) in
  let es := [Enclosure [p 9%Z] []; Enclosure [p 2%Z] [[p 7%Z]]] in
  in_polygons by_first es (p 3%Z) = (true, Some 1) /\ in_polygons by_first es (p 8%Z) = (false, None) /\
  in_polygons by_first es (p 1%Z) = (false, None) /\ is_valid (p 3%Z) = true.
Proof. vm_compute. auto. Qed.

(** *** C43 *)

(** C43: the box of a non-empty list of finite points contains every valid point; if there is one, its corners are the right way
    round and each side goes through a valid point. *)
Theorem C43_box : forall points, points <> [] -> Forall finite_point points ->
  exists b, box_of points = Ok b /\ finite_box b /\ covers b points /\
    ((exists p, In p points /\ is_valid p = true) -> proper b /\ attained b points).
Proof. exact box_of_spec. Qed.

(** C43: it lies in every box that contains the valid points. *)
Theorem C43_smallest : forall points b c,
  Forall finite_point points -> (exists p, In p points /\ is_valid p = true) -> box_of points = Ok b ->
  covers c points -> forall p, in_box b p -> in_box c p.
Proof. exact box_of_smallest. Qed.

(** C43: without valid points the box is the one containing no point; of an empty list it is the one containing every point. *)
Theorem C43_no_valid : forall points, points <> [] -> (forall p, In p points -> is_valid p = false) -> box_of points = Ok non_overlapping.
Proof. exact box_of_none. Qed.
Theorem C43_no_points : box_of [] = Ok everything.
Proof. exact box_of_nil. Qed.
Theorem C43_non_overlapping : forall p, finite_point p -> ~ in_box non_overlapping p.
Proof. exact non_overlapping_empty. Qed.
Theorem C43_everything : forall p, finite_point p -> in_box everything p.
Proof. exact everything_full. Qed.

(** C43: the containment test is right. *)
Theorem C43_contains : forall b p, finite_box b -> finite_point p -> box_contains b p = true <-> in_box b p.
Proof. exact contains_spec. Qed.

(** C43: two boxes with corners the right way round overlap exactly if they share a point. *)
Theorem C43_overlaps : forall a b, finite_box a -> finite_box b -> proper a -> proper b ->
  overlaps a b = true <-> exists p, finite_point p /\ in_box a p /\ in_box b p.
Proof. exact overlaps_spec. Qed.
(** Without that hypothesis it is false: the box meant to overlap nothing overlaps the box of everything. *)
Theorem C43_overlaps_refuted : ~ (forall a b, finite_box a -> finite_box b ->
  overlaps a b = true <-> exists p, finite_point p /\ in_box a p /\ in_box b p).
Proof. exact overlap_refuted. Qed.

(** C43: merging gives a box containing both, and the smallest one. *)
Theorem C43_merge : forall a b, finite_box a -> finite_box b ->
  finite_box (merge_boxes a b) /\
  (forall p, in_box a p \/ in_box b p -> in_box (merge_boxes a b) p) /\
  (proper a -> proper b -> forall c, finite_box c -> (forall p, finite_point p -> in_box a p \/ in_box b p -> in_box c p) ->
     forall p, in_box (merge_boxes a b) p -> in_box c p).
Proof. exact merge_spec. Qed.

(** C43: the box of two points. *)
Theorem C43_two_points : forall p q, finite_point p -> finite_point q ->
  finite_box (box_of_two p q) /\ proper (box_of_two p q) /\ in_box (box_of_two p q) p /\ in_box (box_of_two p q) q /\
  forall c, in_box c p -> in_box c q -> forall r, in_box (box_of_two p q) r -> in_box c r.
Proof. exact box_of_two_spec. Qed.

Example boxes_met :
  let d n := double_of n 0%Z in
  Forall finite_point [Pt (d 1) (d 4); missing_point; Pt (d 3) (d 2)]%Z /\
  box_of [Pt (d 1) (d 4); missing_point; Pt (d 3) (d 2)]%Z = Ok (Box (Pt (d 1) (d 2)) (Pt (d 3) (d 4)))%Z /\
  is_valid (Pt (d 1) (d 4))%Z = true.
Proof. split; [|vm_compute; auto]. repeat constructor. Qed.

Print Assumptions C37_write.
Print Assumptions C37_write_short.
Print Assumptions C37_read.
Print Assumptions C37_round_trip.
Print Assumptions C37_polylines.
Print Assumptions C37_polylines_all.
Print Assumptions C38_runs.
Print Assumptions C38_runs_unique.
Print Assumptions C38_outside.
Print Assumptions C38_window_refuted.
Print Assumptions C38_window_partial.
Print Assumptions C39_round_trip.
Print Assumptions C39_number_of_nodes.
Print Assumptions C39_polygon_index.
Print Assumptions C41_island_refuted.
Print Assumptions C41_regions_partial.
Print Assumptions C41_which.
Print Assumptions C41_region.
Print Assumptions C41_same_answer.
Print Assumptions C41_invalid_point.
Print Assumptions C43_box.
Print Assumptions C43_smallest.
Print Assumptions C43_no_valid.
Print Assumptions C43_no_points.
Print Assumptions C43_non_overlapping.
Print Assumptions C43_everything.
Print Assumptions C43_contains.
Print Assumptions C43_overlaps.
Print Assumptions C43_overlaps_refuted.
Print Assumptions C43_merge.
Print Assumptions C43_two_points.
