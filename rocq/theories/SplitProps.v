(** Properties C51 and C69: collecting a row of cells and splitting it. *)
From Coq Require Import Permutation.
From Verif Require Import Base FloatModel UndoSpec ActionModel ActionSpec MeshModel MeshSpec MeshUndo FaceModel FaceSpec FaceUseSpec SplitModel SplitSpec SplitMain SplitFinal SplitWitness.

(** C51: collecting always stops and reads nothing out of range, for every edge of every mesh with faces in order. *)
Theorem C51_terminates : forall m f, usable m f -> distinct_edges f -> forall e, e < length (m_edges m) -> exists elements edges, collect m f e = Ok (Some (elements, edges)).
Proof. exact collect_total. Qed.

(** C51: exactly the edges and the cells of the row are collected, each edge once (in a closed row the first one again at the end), if the row meets the first
    face at the starting edge only once and the second one, if any, is a quadrilateral. *)
Theorem C51_row_partial : forall m f e, usable m f -> distinct_edges f -> e < length (m_edges m) -> regular_start f e ->
  exists elements edges, collect m f e = Ok (Some (elements, edges)) /\ strip f edges elements /\
    (forall b, In b edges <-> same_row f e b) /\ (forall i, In i elements <-> exists a b, same_row f e a /\ opposite_in f i a b) /\
    (NoDup edges \/ (elements <> [] /\ NoDup (removelast edges) /\ nth 0 edges 0 = nth (length elements) edges 0)).
Proof. exact collected. Qed.
Example C51_open_row : splittable row_mesh row_faces /\ regular_start row_faces 5.
Proof. exact (conj row_facts (proj1 row_start)). Qed.
Example C51_closed_row : splittable ring_mesh ring_faces /\ regular_start ring_faces 8 /\ collect ring_mesh ring_faces 8 = Ok (Some ([0; 2; 3; 1], [8; 9; 10; 11; 8])).
Proof. exact (conj ring_facts ring_start). Qed.

(** C51 is false in general: where a row of quadrilaterals crosses itself in the first face, collecting stops there and misses an edge of the row. *)
Theorem C51_complete_refuted : exists m f e elements edges, splittable m f /\ (forall i, i < num_faces f -> four_edges f i) /\ collect m f e = Ok (Some (elements, edges)) /\
  exists b, same_row f e b /\ ~ In b edges.
Proof. exact incomplete. Qed.

(** C51 is false in general: with a face that is no quadrilateral in second place the starting edge is collected twice, and splitting then reads out of range. *)
Theorem C51_once_refuted : exists m f e elements edges, splittable m f /\ collect m f e = Ok (Some (elements, edges)) /\ (exists i es, nth_error edges i = Some es /\ nth_error edges (S i) = Some es) /\
  live (m_nodes m) (edge_at m e) = true /\ (exists i, In i (faces_with f e) /\ four_edges f i) /\ passes_once f e (nth 0 (faces_with f e) 0) /\ split_row angle_order m f (Some e) = UB.
Proof. exact twice. Qed.

Section Split.
  Variable order : list point -> list edge -> nat -> list (option nat) -> list (option nat).
  Hypothesis order_perm : forall nodes edges n row, Permutation row (order nodes edges n row).
  Variable clockwise : projection -> list point -> bool.
  Notation reversible_tree := (reversible (restore_act (restore_leaf order)) (commit_act (commit_leaf order)) mesh_le).

  (** The faces found by the search meet the hypotheses below. *)
  Theorem C69_search_splittable : forall m m' f, well_indexed (m_nodes m) (m_edges m) -> administrate2d order clockwise m = Ok (m', f) -> usable m' f /\ distinct_edges f /\ two_ends m' f.
  Proof. exact (search_splittable order order_perm clockwise). Qed.

  (** C69: the edges of the row with quadrilaterals only at their sides are replaced by their halves, the middles being new nodes; every cell of the row gets an
      edge between the middles, or two from the middle to the ends of an edge that is not cut; everything else is kept, and undoing and redoing what was
      recorded alternates between the meshes.  If the administration had nothing to do before, it changes nothing afterwards. *)
  Theorem C69_split_partial : forall m f e, consistent m -> usable m f -> distinct_edges f -> two_ends m f -> live (m_nodes m) (edge_at m e) = true -> e < length (m_edges m) ->
    (exists i, In i (faces_with f e) /\ four_edges f i) -> regular_start f e ->
    exists a m1 m2 cuts new elements edges, split_row order m f (Some e) = Ok (Some (a, m1, m2)) /\
      strip f edges elements /\ (forall b, In b edges <-> same_row f e b) /\ (forall i, In i elements <-> exists a b, same_row f e a /\ opposite_in f i a b) /\
      NoDup cuts /\ (forall c, In c cuts <-> same_row f e c /\ cut_at f c) /\ Permutation new (new_edges m cuts edges elements) /\ split_result m cuts new m1 /\
      consistent m1 /\ reversible_tree a m m1 /\ administrate order m1 = Ok m2 /\
      (administrated m -> (forall c, In c cuts -> is_valid (midpoint m c) = true) -> m_nodes m2 = m_nodes m1 /\ m_edges m2 = m_edges m1 /\ reversible_tree a m m2).
  Proof. exact (split_done order order_perm). Qed.

  (** C69: a starting edge that does not exist or is not valid is an error; without a quadrilateral at it nothing is done. *)
  Theorem C69_refused : forall m f e, (e = None \/ exists k, e = Some k /\ (length (m_edges m) <= k \/ (consistent m /\ live (m_nodes m) (edge_at m k) = false))) ->
    split_row order m f e = Throw ConstraintErr.
  Proof. exact (split_refused order). Qed.
  Theorem C69_nothing_to_split : forall m f e, usable m f -> e < length (m_edges m) -> live (m_nodes m) (edge_at m e) = true -> (forall i, In i (faces_with f e) -> ~ four_edges f i) ->
    split_row order m f (Some e) = Ok None.
  Proof. exact (split_nothing order). Qed.
End Split.
Example C69_row : splittable row_mesh row_faces /\ regular_start row_faces 5 /\ live (m_nodes row_mesh) (edge_at row_mesh 5) = true /\ (exists i, In i (faces_with row_faces 5) /\ four_edges row_faces i).
Proof. exact (conj row_facts row_start). Qed.
Example C69_row_result : ends_of_result (split_row angle_order row_mesh row_faces (Some 5)) =
  Some (row_nodes ++ [MeshWitness.pt 2 1; MeshWitness.pt 0 1],
    [e_ 0 1; e_ 1 2; e_ 3 4; e_ 4 5; (None, None); (None, None); e_ 2 5; e_ 2 6; e_ 6 5] ++ [e_ 1 7; e_ 7 4; e_ 2 7; e_ 7 5; e_ 0 8; e_ 8 3; e_ 7 8]).
Proof. exact row_result_is. Qed.

(** C69 is false in general: a node without edges is deleted by the administration afterwards and does not come back when the splitting is undone. *)
Theorem C69_undo_refuted : exists m f e a m1 m2 a' m', consistent m /\ usable m f /\ distinct_edges f /\ two_ends m f /\ live (m_nodes m) (edge_at m e) = true /\
  (exists i, In i (faces_with f e) /\ four_edges f i) /\ regular_start f e /\ split_row angle_order m f (Some e) = Ok (Some (a, m1, m2)) /\
  restore_act (restore_leaf angle_order) a m2 = Ok (a', m') /\ exists n, valid_at (m_nodes m) n = true /\ valid_at (m_nodes m') n = false.
Proof. exact node_lost. Qed.

Print Assumptions C51_terminates.
Print Assumptions C51_row_partial.
Print Assumptions C51_complete_refuted.
Print Assumptions C51_once_refuted.
Print Assumptions C69_search_splittable.
Print Assumptions C69_split_partial.
Print Assumptions C69_refused.
Print Assumptions C69_nothing_to_split.
Print Assumptions C69_undo_refuted.
