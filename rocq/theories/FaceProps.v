(** Properties C19, C20, C21 and C62: faces of a two-dimensional mesh.  [order] stands for the sorting of the edges around a node by angle, [clockwise] for the
    sign of the area of a cell. *)
From Coq Require Import Permutation.
From Verif Require Import Base FloatModel MeshModel MeshSpec MeshWitness FaceModel FaceSpec FaceMain.

Section Faces.
  Variable order : list point -> list edge -> nat -> list (option nat) -> list (option nat).
  Hypothesis order_perm : forall nodes edges n row, Permutation row (order nodes edges n row).
  Variable clockwise : projection -> list point -> bool.

  (** C19: every face found is a simple cycle of three to six edges, not clockwise. *)
  Theorem C19_faces_are_cycles : forall m m' f, well_indexed (m_nodes m) (m_edges m) -> administrate2d order clockwise m = Ok (m', f) ->
    length (faces_nodes f) = length (faces_edges f) /\
    forall i ns es, nth_error (faces_nodes f) i = Some ns -> nth_error (faces_edges f) i = Some es -> face_ok clockwise m' ns es.
  Proof. exact (faces_cycles order order_perm clockwise). Qed.

  (** C20: every edge records exactly the faces that list it, at most two. *)
  Theorem C20_tables_agree : forall m m' f, well_indexed (m_nodes m) (m_edges m) -> administrate2d order clockwise m = Ok (m', f) -> tables_agree m' f.
  Proof. exact (faces_tables order order_perm clockwise). Qed.

  (** C21: the search never leaves a table and never stops with an error. *)
  Theorem C21_search_is_safe : forall m, well_indexed (m_nodes m) (m_edges m) ->
    exists m' f, administrate2d order clockwise m = Ok (m', f) /\ administrate order m = Ok m'.
  Proof. exact (faces_safe order order_perm clockwise). Qed.

  (** C62: no face is found twice, every face turns the same way at each node, smaller faces come first. *)
  Theorem C62_found_once : forall m m' f, well_indexed (m_nodes m) (m_edges m) -> administrate2d order clockwise m = Ok (m', f) ->
    (forall i j es es', nth_error (faces_edges f) i = Some es -> nth_error (faces_edges f) j = Some es' -> (forall e, In e es <-> In e es') -> i = j) /\
    (forall i ns es, nth_error (faces_nodes f) i = Some ns -> nth_error (faces_edges f) i = Some es -> turning_walk m' ns es) /\
    (forall i j ns ns', i < j -> nth_error (faces_nodes f) i = Some ns -> nth_error (faces_nodes f) j = Some ns' -> length ns <= length ns').
  Proof. exact (faces_once order order_perm clockwise). Qed.
  (** C62: the search misses no face: the edges of every simple walk that could be one are used up. *)
  Theorem C62_none_missed : forall m m' f, well_indexed (m_nodes m) (m_edges m) -> administrate2d order clockwise m = Ok (m', f) ->
    forall ns es, turning_walk m' ns es -> 3 <= length ns <= 6 -> NoDup ns ->
      clockwise (m_projection m') (map (fun n => nth n (m_nodes m') missing_point) ns) = false -> used_up f es.
  Proof. exact (faces_maximal order order_perm clockwise). Qed.
End Faces.

(** Two triangles and a detached edge. *)
Example faces_example : well_indexed (m_nodes sample) (m_edges sample) /\ administrate2d keep_order area_sign sample = Ok (sample, sample_faces).
Proof. exact sample_found. Qed.
Example C62_example : turning_walk sample [2; 0; 1] [2; 0; 1] /\
  area_sign Cartesian (map (fun n => nth n (m_nodes sample) missing_point) [2; 0; 1]) = false.
Proof. exact sample_walk. Qed.

Print Assumptions C19_faces_are_cycles.
Print Assumptions C20_tables_agree.
Print Assumptions C21_search_is_safe.
Print Assumptions C62_found_once.
Print Assumptions C62_none_missed.
