(** Properties of generating a mesh of the globe. *)
From Verif Require Import Base FloatModel GlobalModel GlobalSpec GlobalProofs GlobalWitness.

(** C114: adding a face to a mesh without double nodes or edges gives such a mesh, takes nothing away, has nodes for all points and
    edges along all sides of the face, and no other new nodes or edges. *)
Theorem C114_face : forall same g ps, proper same g ->
  proper same (add_polygon same g ps) /\ extends g (add_polygon same g ps) /\
  exists is, Forall2 (stands_for same (add_polygon same g ps)) is ps /\ ring (add_polygon same g ps) is /\
    (forall q, In q (g_nodes (add_polygon same g ps)) -> In q (g_nodes g) \/ In q ps) /\
    forall e, In e (g_edges (add_polygon same g ps)) -> In e (g_edges g) \/ exists k, k < length is /\ e = (nth k is 0, nth (after (length is) k) is 0).
Proof. exact polygon_ok. Qed.
Example C114_hypotheses : proper same_place square /\ length (g_nodes square) = 4 /\ length (g_edges square) = 4 /\
  g_edges (add_polygon same_place square next_square) = [(0, 1); (1, 2); (2, 3); (3, 0); (1, 4); (4, 5); (5, 2)].
Proof. exact (conj square_proper two_squares). Qed.
(** C114: a face on the northern or southern side. *)
Theorem C114_sides : forall same g ps side, proper same g ->
  proper same (add_face same g ps side) /\ grown same g (add_face same g ps side) (eq (map (on_side side) ps)) /\
  drawn same (add_face same g ps side) (map (on_side side) ps).
Proof. exact face_ok. Qed.

(** C115: the globe consists of bands on top of each other, from the equator to the pole or as many as asked for, each with all its
    faces up to the date line on both sides of the equator; there is nothing else, and there
    are no double nodes or edges. *)
Theorem C115_globe : forall same latitude_step short columns rows p, 0 < columns -> 0 < rows -> p <> Flat ->
  exists h bs, generate same latitude_step short columns rows p = Ok h /\ proper same h /\
    stacked latitude_step short columns (double_of 0 0) (fdiv (double_of 360 0) (double_of (Z.of_nat columns) 0)) False bs /\
    (forall b ps, In b bs -> face_of columns b ps -> drawn same h ps) /\
    grown same (Globe [] []) h (fun ps => exists b, In b bs /\ face_of columns b ps) /\
    (length bs = rows \/ length bs <= rows /\ at_pole bs).
Proof. exact generate_ok. Qed.
Example C115_hypotheses : (0 < 4 /\ 0 < 2 /\ Sphere <> Flat) /\
  match generate same_place thirty wide 4 2 Sphere with
  | Ok g => (length (g_nodes g), length (g_edges g)) = (25, 40)
  | _ => False
  end.
Proof. split; [repeat split; [lia..|discriminate]|exact small_globe]. Qed.
Example C115_pole : match generate same_place thirty wide 4 9 Sphere with
  | Ok g => (length (g_nodes g), existsb (same_place (at_ 0 90)) (g_nodes g), existsb (same_place (at_ 0 (-90))) (g_nodes g)) = (35, true, true)
  | _ => False
  end.
Proof. exact whole_globe. Qed.
Example C115_fitting : fits wide_band 0 /\ fits wide_band 1 /\ ~ fits wide_band 2.
Proof. exact wide_fits. Qed.
(** C115: it is refused exactly without columns, without rows or on a flat map. *)
Theorem C115_refused : forall same latitude_step short columns rows p,
  columns = 0 \/ rows = 0 \/ p = Flat <-> generate same latitude_step short columns rows p = Throw MeshKernelErr.
Proof. exact generate_refused. Qed.

(** C116: the latitude step is an iterate of Newton's method: the first after an adjustment below the tolerance, or the fifth. *)
Theorem C116_newton : forall cosine root radians tolerance lat dlon, exists n, 1 <= n <= 5 /\
  delta_latitude cosine root radians tolerance lat dlon = iterate cosine root radians lat dlon n /\
  (n = 5 \/ settled cosine root radians lat dlon tolerance (n - 1)) /\
  forall m, m + 1 < n -> ~ settled cosine root radians lat dlon tolerance m.
Proof. exact latitude_ok. Qed.
Example C116_flat : SFeqb (delta_latitude (fun _ => double_of 1 0) (fun x => x) (double_of 1 0) (double_of 1 (-40)) (double_of 0 0) (double_of 3 0)) (double_of 3 0) = true.
Proof. exact flat_latitude. Qed.

(** C117: with the numbers of edges of the nodes, exactly the edges between nodes of five or six edges at one latitude are deleted. *)
Theorem C117_thin : forall level nodes edges, (forall a b, In (Some a, Some b) edges -> a < length nodes /\ b < length nodes) ->
  exists r, thin level nodes (map (degree edges) (seq 0 (length nodes))) edges = Ok r /\
    Forall2 (fun e x => (superfluous level nodes edges e -> x = (None, None)) /\ (~ superfluous level nodes edges e -> x = e)) edges r.
Proof. exact thin_ok. Qed.
Example C117_hypotheses : (forall a b, In (Some a, Some b) star -> a < length star_nodes /\ b < length star_nodes) /\
  thin SFeqb star_nodes (map (degree star) (seq 0 6)) star = Ok ((None, None) :: tl star).
Proof. exact (conj star_inside star_thin). Qed.
Print Assumptions C114_face.
Print Assumptions C114_sides.
Print Assumptions C115_globe.
Print Assumptions C115_refused.
Print Assumptions C116_newton.
Print Assumptions C117_thin.
