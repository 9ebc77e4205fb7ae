(** Properties C17, C22, C23, C54 and C55: what is done with the faces of a mesh.  [order] stands for the sorting of the edges around a node by angle,
    [clockwise] for the sign of the area of a cell. *)
From Coq Require Import Permutation.
From Verif Require Import Base FloatModel UndoSpec ActionModel ActionSpec MeshModel MeshSpec MeshUndo MeshWitness FaceModel FaceSpec FaceUseModel FaceUseSpec FaceUse FaceUseMain.

Section Use.
  Variable order : list point -> list edge -> nat -> list (option nat) -> list (option nat).
  Hypothesis order_perm : forall nodes edges n row, Permutation row (order nodes edges n row).
  Variable clockwise : projection -> list point -> bool.

  (** The result of the search meets the hypotheses below. *)
  Theorem C17_search_gives_usable_faces : forall m m' f, well_indexed (m_nodes m) (m_edges m) -> administrate2d order clockwise m = Ok (m', f) ->
    usable m' f /\ (consistent m -> consistent m').
  Proof. exact (search_usable order order_perm clockwise). Qed.

  (** C17: with buffers of the reported sizes the export writes exactly the reported numbers of entries; all indices exist. *)
  Theorem C17_export : forall m f, well_indexed (m_nodes m) (m_edges m) -> usable m f ->
    exists dims, api_dimensions m f = Ok dims /\
      a_num_nodes dims = length (m_nodes m) /\ a_num_edges dims = length (m_edges m) /\ a_num_faces dims = num_faces f /\ a_num_face_nodes dims = total (faces_nodes f) /\
      a_num_valid_nodes dims = length (filter is_valid (m_nodes m)) /\ a_num_valid_edges dims = length (filter (live (m_nodes m)) (m_edges m)) /\
      (forall d, fits dims d -> export_mesh m f d = Ok (Data (written (d_nodes d) (m_nodes m)) (written (d_edge_nodes d) (pair_ints (m_edges m)))
        (written (d_edge_faces d) (pair_ints (edges_faces f))) (written (d_nodes_per_face d) (map (fun ns => Z.of_nat (length ns)) (faces_nodes f)))
        (written (d_face_nodes d) (map Z.of_nat (concat (faces_nodes f)))) (written (d_face_edges d) (map Z.of_nat (concat (faces_edges f)))))) /\
      (length (pair_ints (m_edges m)) = 2 * a_num_edges dims /\ length (pair_ints (edges_faces f)) = 2 * a_num_edges dims /\ length (concat (faces_edges f)) = a_num_face_nodes dims) /\
      (forall z, In z (pair_ints (m_edges m)) -> z = (-1)%Z \/ (0 <= z < Z.of_nat (a_num_nodes dims))%Z) /\
      (forall z, In z (pair_ints (edges_faces f)) -> z = (-1)%Z \/ (0 <= z < Z.of_nat (a_num_faces dims))%Z) /\
      (forall n, In n (concat (faces_nodes f)) -> n < a_num_nodes dims) /\ (forall e, In e (concat (faces_edges f)) -> e < a_num_edges dims).
  Proof. exact export_usable. Qed.

  (** C22: triangulation appends the diagonals from the first node of each face, except those whose ends are joined already; it can be undone and redone. *)
  Theorem C22_triangulation : forall f m, consistent m -> lists_all m -> usable m f ->
    exists a m' keep, triangulate_faces order f m = Ok (a, m') /\
      m_nodes m' = m_nodes m /\ m_projection m' = m_projection m /\
      m_edges m' = m_edges m ++ map as_edge (filter keep (diagonals f)) /\
      (forall n o, In (n, o) (diagonals f) -> keep (n, o) = true <-> ~ neighbour m n o) /\
      consistent m' /\ reversible (restore_act (restore_leaf order)) (commit_act (commit_leaf order)) mesh_le a m m'.
  Proof. exact (triangulate_usable order). Qed.
  (** C22: if no diagonal is an edge already, every face with n nodes gets n - 3. *)
  Theorem C22_number_of_diagonals_partial : forall f m, consistent m -> lists_all m -> usable m f -> (forall n o, In (n, o) (diagonals f) -> ~ neighbour m n o) ->
    exists a m', triangulate_faces order f m = Ok (a, m') /\ m_edges m' = m_edges m ++ map as_edge (diagonals f) /\
      length (m_edges m') = length (m_edges m) + fold_right (fun ns k => (length ns - 3) + k) 0 (faces_nodes f).
  Proof. exact (triangulate_usable_exact order). Qed.

  (** C23: same label if and only if linked by faces sharing edges; regions are numbered from 1 and reported with their numbers of faces. *)
  Theorem C23_regions : forall m f, usable m f ->
    exists labels counts, label_all f = Ok (labels, counts) /\ length labels = num_faces f /\
      (forall i, i < num_faces f -> exists r, nth_error labels i = Some (Some r) /\ 1 <= r <= length counts) /\
      (forall i j r s, nth_error labels i = Some (Some r) -> nth_error labels j = Some (Some s) -> (r = s <-> linked f i j)) /\
      counts = map (fun r => (r, region_size labels r)) (seq 1 (length counts)) /\
      forall r, 1 <= r <= length counts -> 0 < region_size labels r.
  Proof. exact regions_usable. Qed.
  (** C23: removal deletes the edges of the faces outside one largest region, keeps all others, then administrates; it can be undone and redone. *)
  Theorem C23_removal : forall m f, consistent m -> usable m f ->
    exists labels counts a m', label_all f = Ok (labels, counts) /\ remove_regions order f m = Ok (a, m') /\
      (length counts <= 1 -> m' = m) /\
      (1 < length counts -> exists main m1, 1 <= main <= length counts /\ (forall r, region_size labels r <= region_size labels main) /\
        m_nodes m1 = m_nodes m /\ length (m_edges m1) = length (m_edges m) /\ m_projection m1 = m_projection m /\
        (forall i es e, nth_error (faces_edges f) i = Some es -> In e es -> nth_error labels i <> Some (Some main) -> edge_at m1 e = missing_edge) /\
        (forall e, (forall i es, nth_error (faces_edges f) i = Some es -> In e es -> nth_error labels i = Some (Some main)) -> edge_at m1 e = edge_at m e) /\
        (forall i es e, nth_error (faces_edges f) i = Some es -> In e es -> nth_error labels i = Some (Some main) -> edge_at m1 e = edge_at m e) /\
        administrate order m1 = Ok m') /\
      consistent m' /\ reversible (restore_act (restore_leaf order)) (commit_act (commit_leaf order)) mesh_le a m m'.
  Proof. exact (removal_usable order order_perm). Qed.

  (** C54: if a face has [k] nodes, the reported size is the number of coordinates written: the closed polygons of those faces, separated. *)
  Theorem C54_face_polygons_partial : forall m f k old buffer, usable m f -> (exists ns, In ns (faces_nodes f) /\ Z.of_nat (length ns) = k) ->
    let out := separated (map (polygon_of m) (filter (fun ns => Z.eqb (Z.of_nat (length ns)) k) (faces_nodes f))) in
    face_polygons_dimension f k old = Z.of_nat (length out) /\
    (length out <= length buffer -> get_face_polygons m f k buffer = Ok (written buffer out, length out)).
  Proof. exact polygons_usable. Qed.
  (** C54: the same for any choice of faces; here the size is right without a match too. *)
  Theorem C54_filtered_polygons : forall m f mask buffer, usable m f -> length mask = num_faces f ->
    let out := separated (map (polygon_of m) (chosen mask (faces_nodes f))) in
    filtered_dimension f mask = Ok (Z.of_nat (length out)) /\ (length out <= length buffer -> fill_polygons m f mask buffer = Ok (written buffer out, length out)).
  Proof. exact filtered_usable. Qed.

  (** C55: the hanging edges reported are those with an end that joins no other edge. *)
  Theorem C55_report_partial : forall m, consistent m -> lists_all m -> exists l, hanging_edges m = Ok l /\ enumerates (hanging m) l.
  Proof. exact hanging_report. Qed.
  (** C55: deletion deletes these and nothing else, and can be undone and redone. *)
  Theorem C55_deletion_partial : forall m, consistent m -> lists_all m ->
    exists a m', delete_hanging_edges order m = Ok (a, m') /\ m_nodes m' = m_nodes m /\ m_projection m' = m_projection m /\ length (m_edges m') = length (m_edges m) /\
      (forall e, (hanging m e -> edge_at m' e = missing_edge) /\ (~ hanging m e -> edge_at m' e = edge_at m e)) /\
      consistent m' /\ reversible (restore_act (restore_leaf order)) (commit_act (commit_leaf order)) mesh_le a m m'.
  Proof. exact (hanging_delete order). Qed.
End Use.

(** C17 is false without a new search: after an edge is inserted the export reads outside the table of faces per edge, whatever the buffers. *)
Theorem C17_stale_refuted : exists e a m' dims d, connect_nodes keep_order blocks (Some 1) (Some 4) = Ok (Some (e, a, m')) /\
  api_dimensions m' blocks_faces = Ok dims /\ fits dims d /\ export_mesh m' blocks_faces d = UB /\ forall d' r, export_mesh m' blocks_faces d' <> Ok r.
Proof. exact stale_export. Qed.
(** C22 as first stated is false: a quadrilateral whose first diagonal exists outside of it stays as it is. *)
Theorem C22_existing_diagonal_refuted : exists m f a m', administrate2d keep_order shoelace_sign m = Ok (m, f) /\ In [0; 1; 2; 3] (faces_nodes f) /\
  triangulate_faces keep_order f m = Ok (a, m') /\ m_edges m' = m_edges m /\ ~ neighbour m' 1 3.
Proof. exact dart_not_triangulated. Qed.
(** C54 is false if no face matches: the reported size is what the caller had in the variable. *)
Theorem C54_no_match_refuted : exists old, face_polygons_dimension blocks_faces 5 old = 7%Z /\ get_face_polygons blocks blocks_faces 5 [] = Ok ([], 0).
Proof. exact dimension_unset. Qed.
(** C55 is false before administration: edges of a node just inserted are deleted although none of them hangs. *)
Theorem C55_stale_refuted : exists m a m', fresh_node = Ok m /\ edge_at m 3 = (Some 1, Some 3) /\ edge_at m 4 = (Some 2, Some 3) /\ ~ hanging m 3 /\
  delete_hanging_edges keep_order m = Ok (a, m') /\ edge_at m' 3 = missing_edge /\ edge_at m' 4 = missing_edge.
Proof. exact fresh_edges_deleted. Qed.

(** A square and, apart, a square cut in two with an edge ending in the open *)
Example use_example : consistent blocks /\ lists_all blocks /\ administrate2d keep_order shoelace_sign blocks = Ok (blocks, blocks_faces) /\ usable blocks blocks_faces.
Proof. exact blocks_facts. Qed.
Example C22_example : diagonals blocks_faces = [(0, 2)] /\ forall n o, In (n, o) (diagonals blocks_faces) -> ~ neighbour blocks n o.
Proof. exact blocks_no_diagonal. Qed.
Example C23_example : label_all blocks_faces = Ok ([Some 1; Some 1; Some 2], [(1, 2); (2, 1)]).
Proof. exact blocks_regions. Qed.
Example C54_example : (exists ns, In ns (faces_nodes blocks_faces) /\ Z.of_nat (length ns) = 3%Z) /\ face_polygons_dimension blocks_faces 3 0 = 9%Z.
Proof. exact blocks_triangles. Qed.
Example C55_example : hanging_edges blocks = Ok [9].
Proof. exact blocks_hanging. Qed.

Print Assumptions C17_search_gives_usable_faces.
Print Assumptions C17_export.
Print Assumptions C22_triangulation.
Print Assumptions C22_number_of_diagonals_partial.
Print Assumptions C23_regions.
Print Assumptions C23_removal.
Print Assumptions C54_face_polygons_partial.
Print Assumptions C54_filtered_polygons.
Print Assumptions C55_report_partial.
Print Assumptions C55_deletion_partial.
Print Assumptions C17_stale_refuted.
Print Assumptions C22_existing_diagonal_refuted.
Print Assumptions C54_no_match_refuted.
Print Assumptions C55_stale_refuted.
