(** Properties C52 and C70: conversion of a mesh to a curvilinear grid. *)
From Coq Require Import Permutation.
From Verif Require Import Base FloatModel MeshModel MeshSpec FaceModel FaceSpec FaceUseSpec FaceUseMain SplitWitness ConvertModel ConvertSpec ConvertProofs ConvertTop ConvertWitness MeshWitness.

Section Convert.
  Variable order : list point -> list edge -> nat -> list (option nat) -> list (option nat).
  Hypothesis order_perm : forall nodes edges n row, Permutation row (order nodes edges n row).
  Variable clockwise : projection -> list point -> bool.

  (** The faces found by the search meet the hypotheses on faces below. *)
  Theorem C52_search_ready : forall m m' f, well_indexed (m_nodes m) (m_edges m) -> administrate2d order clockwise m = Ok (m', f) -> num_faces f <> 0 ->
    consistent m' /\ adjacency_exact m' /\ usable m' f /\ proper_cells m' f /\ cells_once f.
  Proof. exact (search_ready order order_perm clockwise). Qed.

  (** C52: the conversion ends without reading out of range; the nodes of the collected cells, and no others, get one position each; every collected cell lies at
      a cell of the grid; the matrix is the smallest one with the points at their positions; nodes at neighbouring positions of a collected cell are joined by an
      edge.  If two nodes never have three common neighbours, different nodes have different positions, and nodes at any neighbouring positions are joined. *)
  Theorem C52_laid_out_partial : forall m m' f nearest ns inside garbage, well_indexed (m_nodes m) (m_edges m) -> m_nodes m <> [] -> administrate2d order clockwise m = Ok (m', f) ->
    no_bare_edges m' f -> num_faces f < 999 -> quad_nodes f (nearest m' f) ns -> (forall l, inside l = true) ->
    exists rows pos cells, convert order clockwise m nearest inside garbage = Ok (Some rows, m') /\ laid_out m' f (nearest m' f) pos cells rows /\
      (forall c ms a b p q, In c cells -> quad_nodes f c ms -> In a ms -> In b ms -> pos a = Some p -> pos b = Some q -> beside p q -> neighbour m' a b) /\
      (few_common m' -> (forall a b p, pos a = Some p -> pos b = Some p -> a = b) /\ forall a b p q, pos a = Some p -> pos b = Some q -> beside p q -> neighbour m' a b).
  Proof. exact (convert_laid_out order order_perm clockwise). Qed.

  (** C52: without nodes or faces, at a face that is no quadrilateral, or outside the nearest face, the conversion is refused. *)
  Theorem C52_errors : forall m nearest inside garbage, well_indexed (m_nodes m) (m_edges m) ->
    (m_nodes m = [] -> convert order clockwise m nearest inside garbage = Throw AlgorithmErr) /\
    forall m' f, administrate2d order clockwise m = Ok (m', f) -> nearest m' f < num_faces f \/ num_faces f = 0 ->
      num_faces f = 0 \/ (forall ns, ~ quad_nodes f (nearest m' f) ns) \/ (forall l, inside l = false) -> convert order clockwise m nearest inside garbage = Throw AlgorithmErr.
  Proof. exact (convert_errors order order_perm clockwise). Qed.

  (** C70: if the quadrilaterals are cells of a grid, exactly the quadrilaterals reached from the first one are collected, and their nodes get their places. *)
  Theorem C70_grid_recovered_partial : forall m m' f nearest n0 n1 n2 n3 inside garbage place, well_indexed (m_nodes m) (m_edges m) -> m_nodes m <> [] -> administrate2d order clockwise m = Ok (m', f) ->
    no_bare_edges m' f -> num_faces f < 999 -> quad_nodes f (nearest m' f) [n0; n1; n2; n3] -> (forall l, inside l = true) ->
    lists_all m' -> gridded m' f place -> place n1 = Some (0, 0)%Z -> place n2 = Some (1, 0)%Z -> place n3 = Some (1, 1)%Z -> place n0 = Some (0, 1)%Z ->
    exists rows pos cells, convert order clockwise m nearest inside garbage = Ok (Some rows, m') /\ laid_out m' f (nearest m' f) pos cells rows /\
      (forall c, In c cells <-> reached f (nearest m' f) c) /\ (forall n p, pos n = Some p -> place n = Some p).
  Proof. exact (convert_complete order order_perm clockwise). Qed.
End Convert.

Example C52_corner :
  let m := constructed corner_nodes corner_edges in let m' := fst corner_mesh in let f := snd corner_mesh in
  well_indexed (m_nodes m) (m_edges m) /\ m_nodes m <> [] /\ administrate2d angle_order shoelace_sign m = Ok (m', f) /\ no_bare_edges m' f /\ num_faces f < 999 /\ quad_nodes f 1 [0; 1; 4; 3] /\ few_common m' /\
  lists_all m' /\ gridded m' f (fun n => nth n corner_places None).
Proof. exact corner_convertible. Qed.
Example C52_corner_result : points_of (convert angle_order shoelace_sign (constructed corner_nodes corner_edges) (here 1) inside_it None) =
  Some [[pt 2 0; pt 2 1; pt 2 2]; [pt 1 0; pt 1 1; pt 1 2]; [pt 0 0; pt 0 1; pt 0 2]].
Proof. exact corner_result. Qed.
Example C52_corner_errors : convert angle_order shoelace_sign (constructed corner_nodes corner_edges) (here 0) inside_it None = Throw AlgorithmErr /\
  convert angle_order shoelace_sign (constructed corner_nodes corner_edges) (here 1) (fun _ => false) None = Throw AlgorithmErr.
Proof. exact corner_errors. Qed.
Example C70_corner_reached : reached (snd corner_mesh) 1 4 /\ ~ reached (snd corner_mesh) 1 0.
Proof. exact corner_reached. Qed.

(** C52 is false in general: two nodes get the same position, and one of them, a node of the first cell, is missing from the grid. *)
Theorem C52_distinct_refuted : exists m m' f start ns vis s a b p pa rows,
  well_indexed (m_nodes m) (m_edges m) /\ administrate2d angle_order shoelace_sign m = Ok (m', f) /\ no_bare_edges m' f /\ num_faces f < 999 /\ quad_nodes f start ns /\
  front m' f start (fresh None) = Ok (Some (vis, s)) /\ a <> b /\ grid_pos s a = Some p /\ grid_pos s b = Some p /\ In a ns /\ nth_error (m_nodes m') a = Some pa /\
  convert angle_order shoelace_sign m (fun _ _ => start) (fun _ => true) None = Ok (Some rows, m') /\ forall row, In row rows -> ~ In pa row.
Proof. exact twin_refutes. Qed.

(** C52 is false in general: an edge without face at a node of a cell makes the conversion read out of range. *)
Theorem C52_bare_edge_refuted : exists m m' f start ns, well_indexed (m_nodes m) (m_edges m) /\ administrate2d angle_order shoelace_sign m = Ok (m', f) /\ num_faces f < 999 /\ quad_nodes f start ns /\
  convert angle_order shoelace_sign m (fun _ _ => start) (fun _ => true) None = UB.
Proof. exact hanging_refutes. Qed.

(** C52 is false in general: in a state as after a thousand cells in a row, a cell is collected of which a node has no position, column -999 standing for none. *)
Theorem C52_far_refuted : exists m f s c ns vis' s' n, consistent m /\ usable m f /\ unit_cell (grid_pos s) ns /\ quad_nodes f c ns /\ (forall k p, grid_pos s k = Some p -> In k ns) /\
  grow m f 9 [c] [false; false] s = Ok (Some (vis', s')) /\ (forall q, q < 2 -> nth_error vis' q = Some true) /\ (exists q ms, q < 2 /\ quad_nodes f q ms /\ In n ms) /\ grid_pos s' n = None.
Proof. exact far_refutes. Qed.

(** C70 is false for a converter used a second time: it still holds the positions of the first conversion and leaves out a cell. *)
Theorem C70_reuse_refuted : exists m f start start' ns rows g vis s vis' s' c, consistent m /\ usable m f /\ no_bare_edges m f /\ quad_nodes f start' ns /\
  compute m f start (fun _ => true) (fresh None) = Ok (Some (rows, g)) /\ front m f start' (fresh None) = Ok (Some (vis, s)) /\ front m f start' g = Ok (Some (vis', s')) /\
  nth_error vis c = Some true /\ nth_error vis' c <> Some true.
Proof. exact reuse_refutes. Qed.

Print Assumptions C52_search_ready.
Print Assumptions C52_laid_out_partial.
Print Assumptions C52_errors.
Print Assumptions C70_grid_recovered_partial.
Print Assumptions C52_distinct_refuted.
Print Assumptions C52_bare_edge_refuted.
Print Assumptions C52_far_refuted.
Print Assumptions C70_reuse_refuted.
