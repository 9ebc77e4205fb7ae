(** Properties C40 and C53: containment in a polygon and area of a polygon (cartesian coordinates). *)
From Coq Require Import Reals.
From Verif Require Import Base FloatModel GeomModel GeomSpec GeomProofs GeomArea GeomWitness.
Open Scope R_scope.

(** *** C40 *)

(** The winding test does not depend on the start vertex, whatever the arithmetic (also with rounded doubles). *)
Theorem C40_any_start : forall A (u v : list (vec A)) p,
  contains_cartesian A ((u ++ v) ++ firstn 1 (u ++ v)) p = contains_cartesian A ((v ++ u) ++ firstn 1 (v ++ u)) p.
Proof. exact contains_rotate. Qed.
Example C40_any_start_example : exists u v : list (vec double_arith),
  contains_cartesian double_arith ((u ++ v) ++ firstn 1 (u ++ v)) (dp 1 1) = true /\ u <> [] /\ v <> [].
Proof. exists [dp 0 0], [dp 4 0; dp 0 4]. split; [vm_compute; reflexivity|]. split; discriminate. Qed.

(** Exact arithmetic: the answer does not depend on the start vertex, the orientation or the origin. *)
Theorem C40_rotate : forall u v p, polygon_contains real_arith (closed (u ++ v)) p = polygon_contains real_arith (closed (v ++ u)) p.
Proof. exact polygon_rotate. Qed.
Theorem C40_reverse : forall nodes p, polygon_contains real_arith (rev nodes) p = polygon_contains real_arith nodes p.
Proof. exact polygon_reverse. Qed.
Theorem C40_translate : forall d nodes p,
  polygon_contains real_arith (map (translate d) nodes) (translate d p) = polygon_contains real_arith nodes p.
Proof. exact polygon_translate. Qed.
Example C40_both_answers :
  polygon_contains real_arith (closed square) (1, 1) = true /\ polygon_contains real_arith (closed square) (3, 1) = false.
Proof. exact (conj square_inside square_outside). Qed.

(** Points of the boundary are inside. *)
Theorem C40_boundary : forall nodes a b p, (3 <= length nodes)%nat -> side nodes a b -> on_segment a b p ->
  polygon_contains real_arith nodes p = true.
Proof. exact boundary_inside. Qed.
Example C40_boundary_example : side (closed arrow) (4, 0) (1, 1) /\ polygon_contains real_arith (closed arrow) (2.5, 0.5) = true.
Proof. exact (conj (ex_intro _ [(0, 0)] (ex_intro _ [(0, 4); (0, 0)] eq_refl)) arrow_boundary). Qed.

(** For every ring without a side of length zero, points inside are in the convex hull of the vertices. *)
Theorem C40_hull : forall vs p, no_zero_side (closed vs) -> contains_cartesian real_arith (closed vs) p = true -> in_hull vs p.
Proof. exact inside_hull. Qed.
Example C40_hull_example : no_zero_side (closed arrow).
Proof. exact arrow_sides. Qed.

(** Convex rings: inside is exactly the intersection of the half planes of the sides, which is the convex hull of the vertices. *)
Theorem C40_convex : forall vs p, (2 <= length vs)%nat -> convex_ring vs ->
  (polygon_contains real_arith (closed vs) p = true <-> forall a b, side (closed vs) a b -> 0 <= left_of a b p) /\
  (polygon_contains real_arith (closed vs) p = true <-> in_hull vs p).
Proof. exact convex_exact. Qed.
Example C40_convex_example : convex_ring square.
Proof. exact square_convex. Qed.

(** IsPointInPolygonNodes gives the same answer when the point is on the line of a side only within the side. *)
Theorem C40_nodes_agree : forall vs p, (2 <= length vs)%nat ->
  (forall a b, side (closed vs) a b -> left_of a b p = 0 -> on_segment a b p) ->
  in_polygon_nodes real_arith (closed vs) p = polygon_contains real_arith (closed vs) p.
Proof. exact in_polygon_nodes_agrees. Qed.

(** Fewer than three nodes: Polygon::Contains accepts only for the empty list, IsPointInPolygonNodes for at most one node; and the latter nothing in an open list. *)
Theorem C40_few_nodes : forall A (nodes : list (vec A)) p, (length nodes < 3)%nat ->
  (polygon_contains A nodes p = true <-> nodes = []) /\ (in_polygon_nodes A nodes p = true <-> (length nodes <= 1)%nat).
Proof. exact few_nodes. Qed.
Theorem C40_open_list : forall A (nodes : list (vec A)) p a, (3 <= length nodes)%nat ->
  nsame A (fst (hd a nodes)) (fst (last nodes a)) && nsame A (snd (hd a nodes)) (snd (last nodes a)) = false -> in_polygon_nodes A nodes p = false.
Proof. exact open_nodes. Qed.
Example C40_open_example : let l := [dp 0 0; dp 4 0; dp 0 4] in nsame double_arith (fst (hd (dp 0 0) l)) (fst (last l (dp 0 0))) && nsame double_arith (snd (hd (dp 0 0) l)) (snd (last l (dp 0 0))) = false.
Proof. vm_compute. reflexivity. Qed.

(** Not so otherwise: it accepts (4,2) for the triangle (0,0) (2,1) (4,4), because that point is on the line of the first side. *)
Theorem C40_nodes_agree_refuted : exists nodes p,
  polygon_contains double_arith nodes p = false /\ in_polygon_nodes double_arith nodes p = true.
Proof. exact (ex_intro _ thin (ex_intro _ (dp 4 2) thin_values)). Qed.

(** Writing a vertex twice changes the answer: (3,3) is outside the triangle (0,0) (4,0) (0,4), inside (0,0) (4,0) (4,0) (0,4). *)
Theorem C40_repeated_vertex_refuted : exists n1 v n2 p,
  polygon_contains double_arith (n1 ++ [v] ++ n2) p = false /\ polygon_contains double_arith (n1 ++ [v; v] ++ n2) p = true.
Proof. exact (ex_intro _ [dp 0 0] (ex_intro _ (dp 4 0) (ex_intro _ [dp 0 4; dp 0 0] (ex_intro _ (dp 3 3) tri_values)))). Qed.

(** *** C53 *)

(** The result is the shoelace area (at least 1e-8), its sign as direction, and the centroid when the area is not too small. *)
Theorem C53_area : forall vs, (2 <= length vs)%nat ->
  exists c, face_area real_arith (closed vs) =
    Ok (Rmax (Rabs (shoelace (closed vs))) small, c, if Rlt_dec 0 (shoelace (closed vs)) then AntiClockwise else Clockwise) /\
    (small <= Rabs (shoelace (closed vs)) -> c = centroid (closed vs)).
Proof. exact face_area_value. Qed.
Theorem C53_signed_area : forall vs, signed_area real_arith (closed vs) = shoelace (closed vs).
Proof. exact signed_area_shoelace. Qed.
Example C53_area_example : shoelace (closed square) = 4.
Proof. exact square_area. Qed.

Theorem C53_rotate : forall u v A c d, (2 <= length (u ++ v))%nat -> face_area real_arith (closed (u ++ v)) = Ok (A, c, d) ->
  exists c', face_area real_arith (closed (v ++ u)) = Ok (A, c', d) /\ (small < A -> c' = c).
Proof. exact face_area_rotate. Qed.
Theorem C53_reverse : forall vs A c d, (2 <= length vs)%nat -> face_area real_arith (closed vs) = Ok (A, c, d) -> small < A ->
  face_area real_arith (rev (closed vs)) = Ok (A, c, opposite d).
Proof. exact face_area_reverse. Qed.
Theorem C53_translate : forall t vs A c d, (2 <= length vs)%nat -> face_area real_arith (closed vs) = Ok (A, c, d) ->
  exists c', face_area real_arith (closed (map (translate t) vs)) = Ok (A, c', d) /\ (small < A -> c' = translate t c).
Proof. exact face_area_translate. Qed.
Theorem C53_signs : forall vs,
  (forall u v, vs = u ++ v -> signed_area real_arith (closed (v ++ u)) = signed_area real_arith (closed vs)) /\
  (forall t, signed_area real_arith (closed (map (translate t) vs)) = signed_area real_arith (closed vs)) /\
  (forall ws, rev (closed vs) = closed ws -> signed_area real_arith (closed ws) = (- signed_area real_arith (closed vs))%R).
Proof. exact signed_area_signs. Qed.
Example C53_reverse_example : exists A c, face_area real_arith (closed square) = Ok (A, c, AntiClockwise) /\ small < A.
Proof. exact square_face_area. Qed.

(** A convex anticlockwise ring is recognised as anticlockwise, with positive area. *)
Theorem C53_convex : forall vs, (2 <= length vs)%nat -> convex_ring vs ->
  exists A c, face_area real_arith (closed vs) = Ok (A, c, AntiClockwise) /\ A = Rmax (shoelace (closed vs)) small.
Proof. exact face_area_convex. Qed.

(** Fewer than three nodes are refused. *)
Theorem C53_short : forall nodes : list pt, (length nodes < 3)%nat -> face_area real_arith nodes = Throw StdErr.
Proof. exact face_area_short. Qed.

(** The minimum area replaces a small negative area by a positive one, so the centre of mass of a small clockwise polygon is on the wrong
    side of the reference point: all nodes of this triangle have x >= 0, its centre of mass has x < 0. *)
Theorem C53_small_clockwise_refuted : exists nodes A c d,
  face_area double_arith nodes = Ok (A, c, d) /\ Forall (fun v => SFleb (double_of 0 0) (fst v) = true) nodes /\
  SFltb (fst c) (double_of 0 0) = true.
Proof. exact speck_refuted. Qed.

Print Assumptions C40_any_start.
Print Assumptions C40_rotate.
Print Assumptions C40_reverse.
Print Assumptions C40_translate.
Print Assumptions C40_boundary.
Print Assumptions C40_hull.
Print Assumptions C40_convex.
Print Assumptions C40_nodes_agree.
Print Assumptions C40_few_nodes.
Print Assumptions C40_open_list.
Print Assumptions C40_nodes_agree_refuted.
Print Assumptions C40_repeated_vertex_refuted.
Print Assumptions C53_area.
Print Assumptions C53_signed_area.
Print Assumptions C53_rotate.
Print Assumptions C53_reverse.
Print Assumptions C53_translate.
Print Assumptions C53_signs.
Print Assumptions C53_convex.
Print Assumptions C53_short.
Print Assumptions C53_small_clockwise_refuted.
