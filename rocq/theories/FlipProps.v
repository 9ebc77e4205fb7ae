(** Properties C71, C72 and C73: flipping edges, the quality it improves, and the node types. *)
From Coq Require Import Permutation.
From Verif Require Import Base FloatModel UndoSpec ActionModel ActionSpec MeshModel MeshSpec MeshUndo FaceModel FaceSpec FaceUseMain FlipModel FlipSpec FlipStep FlipFinal NodeTypeModel NodeTypeSpec NodeTypeProofs SplitWitness FlipWitness.

Notation reversible_by order := (reversible (restore_act (restore_leaf order)) (commit_act (commit_leaf order)) mesh_le).
Notation permutes order := (forall (nodes : list point) (edges : list edge) n row, Permutation row (order nodes edges n row)).

(** C71: turning one edge between two triangles updates all tables so that they describe the new mesh, unless a node has sixteen edges already. *)
Theorem C71_one_edge : forall order, permutes order -> forall m f e a b l r lf rf, in_step m f -> between m f e a b l r lf rf -> l <> r ->
  (exists m' f', flip order m f e a b l r lf rf = Ok (leaf (ResetEdgeA e (edge_at m e) (Some l, Some r)), m', f') /\ turned m f e a b l r lf rf m' f' /\ in_step m' f' /\
     degree_of m l < max_edges_per_node /\ degree_of m r < max_edges_per_node /\ mesh_le (set_edges m (set_nth e (Some l, Some r) (m_edges m))) m') \/
  (flip order m f e a b l r lf rf = UB /\ exists n, n < length (m_nodes m) /\ max_edges_per_node <= degree_of m n).
Proof. exact flip_ok. Qed.

(** C71: the whole algorithm is a sequence of flips, each wanted when it is made.  It ends with no edge left to flip and tables recomputed, or at an edge beside a face that is
    no triangle; an exception means ten flips or more, an access out of range a node with sixteen edges.  The recorded action undoes and redoes everything. *)
Theorem C71_flip_edges : forall order, permutes order -> forall clockwise types_of cross, (forall p q r, cross p q r r = false) -> forall land,
  (forall m f, in_step m f -> length (types_of m f) = length (m_nodes m)) ->
  forall triangulate m m1 f1, consistent m -> prepared order clockwise triangulate m m1 f1 ->
    match flip_edges order clockwise types_of cross land triangulate m with
    | Ok (a, m', f') => reversible_by order a m m' /\ exists k m2 f2, flips (types_of m1 f1) cross land m1 f1 k m2 f2 /\ in_step m2 f2 /\
        ((m' = m2 /\ f' = f2 /\ exists e, e < length (m_edges m2) /\ beside_other f2 e) \/
         (administrate2d order clockwise m2 = Ok (m', f') /\ m_nodes m' = m_nodes m2 /\ m_edges m' = m_edges m2 /\ m_projection m' = m_projection m2 /\ in_step m' f' /\
          forall e, e < length (m_edges m2) -> ~ improvable (types_of m1 f1) cross land m2 f2 e /\ ~ beside_other f2 e))
    | Throw x => x = AlgorithmErr /\ exists k m2 f2, flips (types_of m1 f1) cross land m1 f1 k m2 f2 /\ max_rounds <= k
    | UB => exists k m2 f2, flips (types_of m1 f1) cross land m1 f1 k m2 f2 /\ full m2
    end.
Proof. exact flip_result. Qed.
(** The start exists for every consistent mesh. *)
Theorem C71_start : forall order, permutes order -> forall clockwise triangulate m, consistent m ->
  exists m1 f1, prepared order clockwise triangulate m m1 f1 /\ in_step m1 f1 /\ administrated m1.
Proof. exact start_exists. Qed.
(** With triangles only, no edge is left to flip, the nodes have not moved, and the tables describe the mesh. *)
Theorem C71_triangles : forall order, permutes order -> forall clockwise types_of cross, (forall p q r, cross p q r r = false) -> forall land,
  (forall m f, in_step m f -> length (types_of m f) = length (m_nodes m)) ->
  forall triangulate m m1 f1 a m' f', consistent m -> prepared order clockwise triangulate m m1 f1 -> all_triangles f1 ->
    flip_edges order clockwise types_of cross land triangulate m = Ok (a, m', f') ->
    exists k m2 f2, flips (types_of m1 f1) cross land m1 f1 k m2 f2 /\ administrate2d order clockwise m2 = Ok (m', f') /\ m_nodes m' = m_nodes m1 /\ m_edges m' = m_edges m2 /\ in_step m' f' /\
      forall e, ~ improvable (types_of m1 f1) cross land m2 f2 e.
Proof. exact flip_triangles. Qed.
Example C71_example : consistent fan /\ prepared angle_order shoelace_sign false fan fan fan_faces /\ in_step fan fan_faces /\ all_triangles fan_faces /\ (quality (node_types blunt fan fan_faces) fan < 10)%Z.
Proof. exact fan_facts. Qed.
Example C71_example_oracles : permutes angle_order /\ (forall p q r, cross_sign p q r r = false) /\ (forall m f, in_step m f -> length (node_types blunt m f) = length (m_nodes m)).
Proof. exact (conj angle_order_perm (conj cross_sign_point (node_types_length blunt))). Qed.
Example C71_example_result : shown (flip_example fan) =
  Ok (edges_of [(0, 1); (1, 2); (2, 3); (3, 4); (4, 5); (5, 6); (6, 0); (0, 2); (2, 4); (2, 5); (0, 5); (3, 7); (4, 7)], [[0; 1; 2]; [0; 2; 5]; [0; 5; 6]; [2; 3; 4]; [2; 4; 5]; [3; 7; 4]]).
Proof. exact fan_result. Qed.

(** C71 is false in general: an access out of range at a node with sixteen edges. *)
Theorem C71_safe_refuted : consistent star /\ flip_example star = UB.
Proof. exact star_facts. Qed.
(** C71 is false in general: with another face than triangles the algorithm can end with edges that still have to be flipped, ... *)
Theorem C71_finished_refuted : exists m a m' f', consistent m /\ flip_example m = Ok (a, m', f') /\ exists e, improvable (node_types blunt m' f') cross_sign no_land m' f' e.
Proof. exact unfinished. Qed.
(** ... and leaves faces with their nodes in clockwise order, as the search never does. *)
Theorem C71_orientation_refuted : exists m a m' f', consistent m /\ flip_example m = Ok (a, m', f') /\
  exists ns, In ns (faces_nodes f') /\ shoelace_sign (m_projection m') (map (fun n => nth n (m_nodes m') missing_point) ns) = true.
Proof. exact clockwise_left. Qed.

(** C72: without land boundaries every flip lowers the sum of the squared differences from the wanted numbers of edges. *)
Theorem C72_quality : forall types cross land m f k m' f', (forall m e l r, land m e l r = None) -> in_step m f -> flips types cross land m f k m' f' ->
  (Z.of_nat k + quality types m' <= quality types m)%Z.
Proof. exact (fun types cross land m f k m' f' => flips_quality cross land types m f k m' f'). Qed.
(** C72: so the algorithm succeeds if this sum is below ten at the start, and reads nothing out of range if it is below a hundred. *)
Theorem C72_succeeds : forall order, permutes order -> forall clockwise types_of cross, (forall p q r, cross p q r r = false) -> forall land,
  (forall m f, in_step m f -> length (types_of m f) = length (m_nodes m)) ->
  forall triangulate m m1 f1, (forall m e l r, land m e l r = None) -> consistent m -> prepared order clockwise triangulate m m1 f1 -> in_step m1 f1 ->
    ((quality (types_of m1 f1) m1 < 10)%Z -> exists r, flip_edges order clockwise types_of cross land triangulate m = Ok r) /\
    ((quality (types_of m1 f1) m1 < 100)%Z -> flip_edges order clockwise types_of cross land triangulate m <> UB).
Proof. exact flip_succeeds. Qed.

(** C73: the node types are found without access out of range; each is one of four, hanging nodes have the type -1, other nodes only if they are at an edge of no face,
    and nodes of types 2 and 3 are on the boundary.  If every edge belongs to a face, the type follows from the numbers of edges and of boundary edges. *)
Theorem C73_types : forall sharp m f, in_step m f -> exists types, classify sharp m f = Ok types /\ length types = length (m_nodes m) /\
  (forall n t, nth_error types n = Some t -> (t = -1 \/ t = 1 \/ t = 2 \/ t = 3)%Z /\
    (degree_of m n < 2 -> t = (-1)%Z) /\
    (t = (-1)%Z -> degree_of m n < 2 \/ exists e, unused m f e /\ ends_in (edge_at m e) n) /\
    ((2 <= t)%Z -> exists e, e < length (m_edges m) /\ ends_in (edge_at m e) n /\ on_boundary f e)) /\
  ((forall e, ~ unused m f e) -> forall n t bs, nth_error types n = Some t -> boundary_edges m f n bs -> t = type_of (length bs) (degree_of m n)).
Proof. exact classify_ok. Qed.
Theorem C73_boundary_edges : forall m f, in_step m f -> forall n, exists bs, boundary_edges m f n bs.
Proof. exact boundary_edges_exist. Qed.
Example C73_example : (forall e, ~ unused fan fan_faces e) /\ classify blunt fan fan_faces = Ok [2; 3; 2; 2; 2; 2; 3; 3]%Z.
Proof. exact fan_types. Qed.
(** C73: the angle at a node plays no part, whatever the test says: the corners of a square at the ends of a diagonal are not found. *)
Theorem C73_angle_unused : forall sharp sharp' m f, in_step m f -> classify sharp m f = classify sharp' m f.
Proof. exact classify_same. Qed.
Theorem C73_corner_refuted : in_step square square_faces /\ m_nodes square = square_nodes /\ (forall e, ~ unused square square_faces e) /\ classify sharp_always square square_faces = Ok [2; 3; 2; 3]%Z.
Proof. exact square_facts. Qed.
(** C73 is false in general: with edges of no face the types depend on the numbering of the edges, ... *)
Theorem C73_order_refuted : exists edges edges', Permutation edges edges' /\
  (let m := fst (searched tail_nodes edges) in let f := snd (searched tail_nodes edges) in in_step m f /\ m_nodes m = tail_nodes /\ m_edges m = edges /\ forall sharp, classify sharp m f = Ok [3; 3; -1; -1; -1; -1]%Z) /\
  (let m := fst (searched tail_nodes edges') in let f := snd (searched tail_nodes edges') in in_step m f /\ m_nodes m = tail_nodes /\ m_edges m = edges' /\ forall sharp, classify sharp m f = Ok [3; 3; 2; -1; -1; -1]%Z).
Proof. exact types_of_order. Qed.
(** ... and a node of the boundary can count as internal. *)
Theorem C73_internal_refuted : exists m f types, in_step m f /\ classify blunt m f = Ok types /\ nth_error types 0 = Some 1%Z /\ exists e, e < length (m_edges m) /\ ends_in (edge_at m e) 0 /\ on_boundary f e.
Proof. exact internal_wrong. Qed.

Print Assumptions C71_one_edge.
Print Assumptions C71_flip_edges.
Print Assumptions C71_start.
Print Assumptions C71_triangles.
Print Assumptions C71_safe_refuted.
Print Assumptions C71_finished_refuted.
Print Assumptions C71_orientation_refuted.
Print Assumptions C72_quality.
Print Assumptions C72_succeeds.
Print Assumptions C73_types.
Print Assumptions C73_boundary_edges.
Print Assumptions C73_angle_unused.
Print Assumptions C73_corner_refuted.
Print Assumptions C73_order_refuted.
Print Assumptions C73_internal_refuted.
