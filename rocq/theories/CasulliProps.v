(** Properties C89 to C92: the Casulli refinement of a mesh. *)
From Coq Require Import Permutation.
From Verif Require Import Base FloatModel UndoSpec ActionModel ActionSpec MeshModel MeshSpec MeshUndo FaceModel FaceSpec FaceUseMain FlipModel FlipSpec NodeTypeSpec SplitWitness RefineWitness
  CasulliModel CasulliSpec CasulliMask CasulliFinal CasulliMain CasulliWitness.

Notation reversible_by order := (reversible (restore_act (restore_leaf order)) (commit_act (commit_leaf order)) mesh_le).
Notation permutes order := (forall (nodes : list point) (edges : list edge) n row, Permutation row (order nodes edges n row)).

(** C89: the mask tells, for every node, what its surroundings say, and nothing else is marked. *)
Theorem C89_mask : forall inside types m f, in_step m f -> length types = length (m_nodes m) ->
  exists masks, node_mask inside types m f = Ok masks /\ length masks = 10 * length (m_nodes m) /\
    (forall n, n < length (m_nodes m) -> mask_is inside types m f n (nth n masks Unassigned)) /\ (forall n, length (m_nodes m) <= n -> nth n masks Unassigned = Unassigned).
Proof. exact mask_ok. Qed.
Theorem C89_one_mask : forall inside types m f n v v', mask_is inside types m f n v -> mask_is inside types m f n v' -> v = v'.
Proof. exact mask_unique. Qed.
(** A node marked as boundary has exactly two boundary edges. *)
Theorem C89_two_edges : forall inside types m f, in_step m f -> apart f -> none_loose m f -> length types = length (m_nodes m) ->
  forall n, n < length (m_nodes m) -> mask_is inside types m f n Boundary -> length (rim_edges m f n) = 2.
Proof. exact boundary_two. Qed.
Example C89_example : fit (fst six_faces) (snd six_faces) /\ length (types_of (fst six_faces) (snd six_faces)) = length (m_nodes (fst six_faces)) /\
  shown_mask west six_faces = Ok [Corner; Boundary; Unassigned; Unassigned; Boundary; Registered; Unassigned; Unassigned; Corner; Boundary; Unassigned; Unassigned].
Proof. exact (conj six_fit (conj (proj1 six_data) six_mask)). Qed.
Example C89_example_all : fit (fst four) (snd four) /\ shown_mask all_in four = Ok [Corner; Boundary; Corner; Boundary; Registered; Boundary; Corner; Boundary; Corner].
Proof. exact (conj four_fit four_mask). Qed.

(** C90: every marked corner of a face and every marked end of a boundary edge gets a node of its own, and the table tells for both sides of an edge what takes the place of its ends. *)
Theorem C90_new_nodes : forall order m f centres masks, in_step m f -> oriented f -> apart f -> length centres = num_faces f ->
  (forall n, lt_mask (nth n masks Unassigned) Unassigned = false) -> length (m_nodes m) + length (corners masks f) + length (sides masks m f) <= length masks ->
  exists s, new_nodes order f centres m masks = Ok s /\
    m_nodes (g_mesh s) = m_nodes m ++ new_points masks m f centres /\ m_edges (g_mesh s) = m_edges m /\ consistent (g_mesh s) /\ reversible_by order (compound (g_acts s)) m (g_mesh s) /\
    length (g_masks s) = length masks /\ (forall n, nth n (g_masks s) Unassigned =
      if (length (m_nodes m) <=? n) && (n <? length (m_nodes m) + length (corners masks f)) then NewAssigned
      else if (length (m_nodes m) + length (corners masks f) <=? n) && (n <? length (m_nodes m) + length (corners masks f) + length (sides masks m f)) then NewGeneral
      else nth n masks Unassigned) /\
    length (g_table s) = length (m_edges m) /\
    (forall e a b, e < length (m_edges m) -> edge_at m e = (Some a, Some b) -> (exists i, lists f i e) ->
       nth_error (g_table s) e = Some [Some (beside masks m f b a e a); Some (beside masks m f b a e b); Some (beside masks m f a b e a); Some (beside masks m f a b e b)]) /\
    (forall e, e < length (m_edges m) -> (forall i, ~ lists f i e) -> nth_error (g_table s) e = Some [None; None; None; None]).
Proof. exact nodes_made. Qed.
(** There are at most three new nodes for each edge, so the mask has room for them as long as there are at most three edges for each node. *)
Theorem C90_room : forall m f masks, in_step m f -> oriented f -> length (corners masks f) + length (sides masks m f) <= 3 * length (m_edges m).
Proof. exact room. Qed.
Example C90_example : fit (fst four) (snd four) /\ length (centres_of (fst four) (snd four)) = num_faces (snd four).
Proof. exact (conj four_fit (proj2 four_data)). Qed.
(** Two faces with two edges in common: a new node of one of them is joined to nothing. *)
Theorem C90_apart_refuted : exists m f types centres, in_step m f /\ oriented f /\ none_loose m f /\ length types = length (m_nodes m) /\ length centres = num_faces f /\ length (m_edges m) <= 3 * length (m_nodes m) /\
  exists masks acts m1 masks1 n, node_mask all_in types m f = Ok masks /\ grow_casulli angle_order all_in types centres f m = Ok (acts, m1, masks1) /\
    length (m_nodes m) <= n < length (m_nodes m) + length (corners masks f) /\ forall e, In e (m_edges m1) -> ~ ends_in e n.
Proof. exact bend_lost. Qed.

(** C91: the edges added are those along and across the old edges, around the nodes of the boundary and at corners, and no others; no diagonal is ever made. *)
Theorem C91_new_edges : forall order, permutes order -> forall inside types m f centres,
  in_step m f -> oriented f -> apart f -> none_loose m f -> length types = length (m_nodes m) -> length centres = num_faces f -> length (m_edges m) <= 3 * length (m_nodes m) ->
  exists masks acts m1 masks1, node_mask inside types m f = Ok masks /\ (forall n, n < length (m_nodes m) -> mask_is inside types m f n (nth n masks Unassigned)) /\
    grow_casulli order inside types centres f m = Ok (acts, m1, masks1) /\ m_nodes m1 = m_nodes m ++ new_points masks m f centres /\ m_edges m1 = edges_after masks m f.
Proof. exact grown. Qed.
Example C91_example : fit (fst six_faces) (snd six_faces) /\ length (types_of (fst six_faces) (snd six_faces)) = length (m_nodes (fst six_faces)) /\ length (centres_of (fst six_faces) (snd six_faces)) = num_faces (snd six_faces).
Proof. exact (conj six_fit six_data). Qed.
Example C91_example_result : shown_grown west six_faces = Ok (34, links_between
  [(24, 25); (12, 13); (24, 12); (25, 13); (12, 15); (26, 27); (12, 26); (15, 27); (28, 2); (16, 2); (28, 16); (16, 17); (13, 14); (16, 13); (17, 14); (15, 14); (18, 19); (15, 18); (14, 19); (18, 21);
   (29, 30); (18, 29); (21, 30); (17, 6); (22, 6); (17, 22); (22, 23); (19, 20); (22, 19); (23, 20); (21, 20); (31, 32); (21, 31); (20, 32); (23, 10); (33, 10); (23, 33); (0, 24); (0, 26); (1, 16);
   (1, 13); (28, 25); (4, 15); (4, 18); (29, 27); (8, 31); (8, 30); (9, 23); (9, 20); (33, 32)]).
Proof. exact six_grown. Qed.
(** An edge without a face at a node of the boundary makes it fail. *)
Theorem C91_loose_refuted : exists m f types centres, in_step m f /\ oriented f /\ apart f /\ length types = length (m_nodes m) /\ length centres = num_faces f /\ length (m_edges m) <= 3 * length (m_nodes m) /\
  casulli angle_order shoelace_sign all_in types centres f m = Throw ConstraintErr.
Proof. exact spur_fails. Qed.

(** C92: the refinement succeeds.  Nodes that were replaced are gone with their edges, edges with both ends left stay, the tables describe the refined mesh, and undoing it gives back the mesh. *)
Theorem C92_refined : forall order, permutes order -> forall clockwise inside types m f centres,
  in_step m f -> oriented f -> apart f -> none_loose m f -> length types = length (m_nodes m) -> length centres = num_faces f -> length (m_edges m) <= 3 * length (m_nodes m) ->
  exists masks a m3 f3, node_mask inside types m f = Ok masks /\ (forall n, n < length (m_nodes m) -> mask_is inside types m f n (nth n masks Unassigned)) /\
    casulli order clockwise inside types centres f m = Ok (a, m3, f3) /\ reversible_by order a m m3 /\ in_step m3 f3 /\ administrated m3 /\
    m_edges m3 = map (fun e => if live (points_after masks m f centres) e then e else missing_edge) (edges_after masks m f) /\
    length (m_nodes m3) = length (points_after masks m f centres) /\
    forall n p, nth_error (points_after masks m f centres) n = Some p ->
      (connected (points_after masks m f centres) (edges_after masks m f) n -> nth_error (m_nodes m3) n = Some p) /\
      (~ connected (points_after masks m f centres) (edges_after masks m f) n -> nth_error (m_nodes m3) n = Some missing_point).
Proof. exact refined. Qed.
Example C92_example : fit (fst four) (snd four) /\ length (types_of (fst four) (snd four)) = length (m_nodes (fst four)) /\ length (centres_of (fst four) (snd four)) = num_faces (snd four).
Proof. exact (conj four_fit four_data). Qed.
(** Two by two quadrilaterals become five by five. *)
Example C92_example_result : option_map snd (match shown_refined all_in four with Ok r => Some r | _ => None end) =
  Some [[0; 25; 9; 27]; [2; 31; 14; 30]; [6; 34; 20; 37]; [8; 40; 23; 36]; [9; 10; 11; 12]; [9; 12; 28; 27]; [9; 25; 26; 10]; [10; 13; 16; 11]; [10; 26; 29; 13];
        [11; 16; 21; 18]; [11; 18; 17; 12]; [12; 17; 33; 28]; [13; 14; 15; 16]; [13; 29; 30; 14]; [14; 31; 32; 15]; [15; 32; 35; 22]; [15; 22; 21; 16]; [17; 18; 19; 20];
        [17; 20; 34; 33]; [18; 21; 24; 19]; [19; 24; 39; 38]; [19; 38; 37; 20]; [21; 22; 23; 24]; [22; 35; 36; 23]; [23; 40; 39; 24]].
Proof. exact four_refined. Qed.
(** A corner with more than four edges is joined to the same node twice. *)
Theorem C92_twice_refuted : exists m f types centres, in_step m f /\ oriented f /\ apart f /\ none_loose m f /\ length types = length (m_nodes m) /\ length centres = num_faces f /\ length (m_edges m) <= 3 * length (m_nodes m) /\
  exists a m3 f3 i j x y, casulli angle_order shoelace_sign all_in types centres f m = Ok (a, m3, f3) /\ i < j /\ nth_error (m_edges m3) i = Some (Some x, Some y) /\ nth_error (m_edges m3) j = Some (Some x, Some y).
Proof. exact fans_twice. Qed.

Print Assumptions C89_mask.
Print Assumptions C89_one_mask.
Print Assumptions C89_two_edges.
Print Assumptions C90_new_nodes.
Print Assumptions C90_room.
Print Assumptions C90_apart_refuted.
Print Assumptions C91_new_edges.
Print Assumptions C91_loose_refuted.
Print Assumptions C92_refined.
Print Assumptions C92_twice_refuted.
