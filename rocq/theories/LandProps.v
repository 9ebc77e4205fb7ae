(** Properties C81 to C88: land boundaries. *)
From Verif Require Import Base FloatModel FloatReal UndoSpec ActionModel MeshModel MeshSpec MeshWitness FaceModel FaceSpec FlipSpec SplitModel SplitWitness PolyModel PolySpec LandModel LandSpec LandNear LandFaces LandPaths LandWalk LandWhole LandAssign LandWitness.

Notation reversible_by order := (reversible (restore_act (restore_leaf order)) (commit_act (commit_leaf order)) mesh_le).
(** What is asked of the distances between nodes and from segments: they are numbers, the former not negative. *)
Notation distances dist line m land :=
  ((forall p q, In p (m_nodes m) -> In q (m_nodes m) -> good (dist p q)) /\
   (forall p q r, In p (m_nodes m ++ land) -> In q (m_nodes m ++ land) -> In r (m_nodes m ++ land) -> is_double (fst (fst (line p q r))))).
(** The faces given for the points of the land boundary and for its crossings exist. *)
Notation faces_known f face_of crossed land :=
  (length face_of = length land /\ (forall i, In (Some i) face_of -> i < num_faces f) /\ (forall (p q : point) i, crossed p q = Some i -> i < num_faces f)).
(** [c] tells which edges of faces are close to the piece. *)
Notation tells_close dist dist2 line land a b factor m f c := (forall e i, lists f i e -> c e = true <-> edge_close dist dist2 line land a b factor m e).

(** C81: the segment found is the first nearest among those with two points and a positive distance. *)
Theorem C81_nearest : forall line land range p, fst (ends_of land range) <= snd (ends_of land range) < length land ->
  exists d q i r, nearest line land range p = Ok (d, q, i, r) /\
    match i with
    | Some i => is_nearest line land (fst (ends_of land range)) (snd (ends_of land range)) p i d q r
    | None => d = dbl_max /\ q = p /\ none_near line land (fst (ends_of land range)) (snd (ends_of land range)) p
    end.
Proof. exact nearest_meaning. Qed.
Example C81_example : nearest flat_line bend None (pt 1 1) = Ok (double_of 1 0, pt 1 0, Some 0, double_of 1 (-1)).
Proof. exact bend_near. Qed.
(** A segment the point lies on does not count. *)
Theorem C81_on_land_refuted : exists land p q d r, flat_line p (point_at land 0) (point_at land 1) = (double_of 0 0, p, r) /\
  nearest flat_line land None p = Ok (d, q, Some 1, double_of 0 0) /\ SFltb (double_of 0 0) d = true /\ q <> p.
Proof. exact on_land. Qed.

(** C82: an edge is close to a piece exactly if a segment of positive length is nearer to one of its ends than its length times the factor; among these the first
    the end projects on is found, otherwise the last. *)
Theorem C82_close_edge : forall dist dist2 line land a b factor m e u v p q, a < b < length land ->
  nth_error (m_edges m) e = Some (Some u, Some v) -> nth_error (m_nodes m) u = Some p -> nth_error (m_nodes m) v = Some q ->
  exists o, close_piece dist dist2 line land (a, b) factor m e = Ok o /\ close_segment dist2 line land a b (fmul (dist p q) factor) p q o.
Proof. exact close_piece_ok. Qed.
Theorem C82_no_edge : forall dist dist2 line land range factor m e ed, nth_error (m_edges m) e = Some ed -> (fst ed = None \/ snd ed = None) ->
  close_piece dist dist2 line land range factor m e = Ok None.
Proof. exact close_piece_dead. Qed.
Example C82_example : close_piece flat_dist flat_dist2 flat_line coast (0, 2) (double_of 5 0) grid_mesh 0 = Ok (Some 0) /\
  close_piece flat_dist flat_dist2 flat_line coast (0, 2) (double_of 1 (-2)) grid_mesh 2 = Ok None.
Proof. exact grid_close. Qed.

(** C83: the nodes marked for a piece are those inside the polygon of the faces along it: the faces reached from the first one met, across edges, through faces with
    a close edge; without one, the faces at the boundary with a close edge. *)
Theorem C83_faces : forall m f, in_step m f -> forall c close, (forall e i, lists f i e -> close e = Ok (c e)) ->
  forall start, (forall i, start = Some i -> i < num_faces f) ->
  exists mask edges, mask_faces f close (S (num_faces f)) [start]
      (match start with Some i => set_nth i true (repeat false (num_faces f)) | None => repeat false (num_faces f) end) (repeat None (length (m_edges m))) = Ok (mask, edges) /\
    length mask = num_faces f /\ forall i, nth i mask false = true <-> along f c start i.
Proof. exact mask_faces_ok. Qed.
Theorem C83_nodes : forall dist dist2 line inside face_of crossed m f, in_step m f -> forall land, faces_known f face_of crossed land ->
  forall a b factor k c, a < b < length land -> tells_close dist dist2 line land a b factor m f c ->
  exists mask, node_mask dist dist2 line inside face_of crossed land (a, b) factor k m f = Ok mask /\ length mask = length (m_nodes m) /\
    forall n, n < length (m_nodes m) ->
      let in_mask := inside (nth n (m_nodes m) missing_point) = true /\ exists i ns, along f c (first_met face_of crossed land a b) i /\ nth_error (faces_nodes f) i = Some ns /\ In n ns in
      (nth_error mask n = Some (Some k) /\ in_mask) \/ (nth_error mask n = Some None /\ ~ in_mask).
Proof. exact node_mask_meaning. Qed.
(** With one or two faces the mask does not spread: the other face is reached, its nodes are not marked. *)
Theorem C83_two_faces_refuted : exists m f land face_of c mask, in_step m f /\ faces_known f face_of never land /\
  tells_close flat_dist flat_dist2 flat_line land 0 1 (double_of 1 0) m f c /\
  node_mask flat_dist flat_dist2 flat_line (fun _ => true) face_of never land (0, 1) (double_of 1 0) 0 m f = Ok mask /\
  first_met face_of never land 0 1 = Some 0 /\ reached f c 0 1 /\ nth_error (faces_nodes f) 1 = Some [1; 2; 5; 4] /\ nth_error mask 2 = Some None.
Proof. exact two_faces. Qed.

(** C84: the edges recorded by the search lead from every node back to the start over marked nodes or node 0; no path over marked nodes is shorter.  Without a
    result a node has no segment of the piece at a positive distance. *)
Theorem C84_shortest : forall dist line land a b outer m f, distances dist line m land -> a < b < length land -> in_step m f ->
  forall mask, length mask = length (m_nodes m) -> forall k start, start < length (m_nodes m) -> row_of m start <> [] ->
  match shortest_path dist line land (a, b) outer k m f mask start with
  | Ok q => shortest m (fun n => nth_error mask n = Some (Some k)) (step_cost dist line land a b outer m f) start (q_edges q)
  | Throw e => e = AlgorithmErr /\ ~ off_land line land a b m
  | UB => ~ off_land line land a b m
  end.
Proof. exact shortest_meaning. Qed.
(** If node 0 is marked, or the start, the way back is a path over marked nodes. *)
Theorem C84_real : forall dist line land a b outer m f (mask : list (option nat)) k start edges n ns l, (nth_error mask 0 = Some (Some k) \/ start = 0) ->
  back m (fun x => nth_error mask x = Some (Some k) \/ x = 0) (step_cost dist line land a b outer m f) start edges (n :: ns) l ->
  route m (fun x => nth_error mask x = Some (Some k)) (step_cost dist line land a b outer m f) start n l.
Proof. exact back_real. Qed.
Example C84_example : distances flat_dist flat_line chain_mesh chain_land /\ in_step chain_mesh chain_faces /\ off_land flat_line chain_land 0 1 chain_mesh.
Proof. exact chain_conditions. Qed.
(** Otherwise it may pass node 0 although that is not marked: here from node 1 over node 0 to node 2. *)
Theorem C84_node_zero_refuted : exists q, shortest_path flat_dist flat_line chain_land (0, 1) false 0 chain_mesh chain_faces [None; Some 0; Some 0] 1 = Ok q /\
  m_edges chain_mesh = [(Some 1, Some 0); (Some 0, Some 2)] /\ q_edges q = [Some 0; None; Some 1].
Proof. exact through_zero. Qed.
(** With a node on the land boundary the search reads outside of it, or throws. *)
Theorem C84_on_land_refuted : exists land land' start start', in_step chain_mesh chain_faces /\
  shortest_path flat_dist flat_line land (0, 1) false 0 chain_mesh chain_faces [Some 0; Some 0; Some 0] start = UB /\
  shortest_path flat_dist flat_line land' (0, 1) false 0 chain_mesh chain_faces [Some 0; Some 0; Some 0] start' = Throw AlgorithmErr.
Proof. exact stuck_on_land. Qed.

(** C85: one path: it runs between the ends nearest to the first and the last point of the piece of the edges between marked nodes nearest to these points; the nodes
    on it that fit get the piece, all others keep theirs. *)
Theorem C85_path : forall dist dist2 line inside face_of crossed m f, in_step m f -> forall land, distances dist line m land -> faces_known f face_of crossed land ->
  forall types ps, length types = length (m_nodes m) -> (forall i x y, nth_error ps i = Some (x, y) -> x < y < length land) ->
  forall outer k a b s, nth_error ps k = Some (a, b) -> kept line land ps m s ->
  match make_path dist dist2 line inside face_of crossed types m f outer k s with
  | Ok (joined, not_joined, s') => kept line land ps m s' /\ length (n_mask s') = length (m_nodes m) /\
      one_path dist dist2 line inside face_of crossed m f land types ps outer k a b s joined not_joined s'
  | Throw e => e = StdErr \/ e = AlgorithmErr
  | UB => ~ off_land line land a b m
  end.
Proof. exact path_meaning. Qed.
Example C85_example : in_step grid_mesh grid_faces /\ distances flat_dist flat_line grid_mesh coast /\ faces_known grid_faces (nowhere coast) never coast /\
  kept flat_line coast [(0, 1); (1, 2)] grid_mesh (unassigned grid_mesh coast [(0, 1); (1, 2)]).
Proof. exact grid_conditions. Qed.

(** C86: finding the pieces of the nodes: one path for every piece, for the choice of inner and outer boundaries a second one if a node of the first did not fit; then the
    nodes along the boundary of the mesh without a piece get one: the piece of the nearest segment, or a new one behind. *)
Theorem C86_find_partial : forall dist dist2 line inside face_of crossed m f, in_step m f -> forall land, distances dist line m land -> faces_known f face_of crossed land ->
  forall types, length types = length (m_nodes m) -> forall c, land <> [] -> c <> NoProjection ->
  exists ps, pieces_of inside land = Ok ps /\ (forall a b, In (a, b) ps -> a < b < length land) /\
  match find_boundary dist dist2 line inside face_of crossed types m f land c with
  | Ok (Some s) => exists s1, paths_done dist dist2 line inside face_of crossed m f land types ps (outer_of c) (again_of c) (length ps) s1 /\
      n_land s1 = land /\ n_pieces s1 = ps /\ length (n_piece s1) = length (m_nodes m) /\ (forall n i, nth n (n_piece s1) None = Some i -> i < length ps) /\
      if outer_of c then grown dist2 line m f s1 s else s = s1
  | Ok None => False
  | Throw e => e = StdErr \/ e = AlgorithmErr
  | UB => exists a b, In (a, b) ps /\ ~ off_land line land a b m
  end.
Proof. exact find_meaning. Qed.
Theorem C86_nothing : forall dist dist2 line inside face_of crossed types m f land c, land = [] \/ c = NoProjection ->
  find_boundary dist dist2 line inside face_of crossed types m f land c = Ok None.
Proof. exact find_nothing. Qed.
(** The nodes along the far side of the mesh get a piece as well, however far they are. *)
Theorem C86_far_refuted : exists s, grid_result = Ok (Some s) /\ n_pieces s = [(0, 1); (1, 2)] /\
  n_piece s = [Some 0; Some 1; Some 1; Some 0; None; Some 1; Some 0; Some 0; Some 1].
Proof. exact far_nodes. Qed.

(** C87: snapping moves every inner, boundary and corner node with a piece to the nearest point of the piece, nothing else, and can be undone. *)
Theorem C87_snap : forall order line types m s, consistent m -> length types = length (m_nodes m) -> length (n_piece s) = length (m_nodes m) -> m_nodes m <> [] ->
  (forall n i, nth n (n_piece s) None = Some i -> exists a b, nth_error (n_pieces s) i = Some (a, b) /\ a < b < length (n_land s)) ->
  exists act m', snap line order types m (Some s) = Ok (Some (act, m')) /\ reversible_by order act m m' /\
    consistent m' /\ m_edges m' = m_edges m /\ m_projection m' = m_projection m /\ length (m_nodes m') = length (m_nodes m) /\
    forall n, n < length (m_nodes m) -> let p := nth n (m_nodes m) missing_point in let q := nth n (m_nodes m') missing_point in
      (forall k a b, movable types n -> nth n (n_piece s) None = Some k -> nth_error (n_pieces s) k = Some (a, b) -> landing line (n_land s) a b p q) /\
      (~ movable types n \/ nth n (n_piece s) None = None -> q = p).
Proof. exact snap_ok. Qed.
Example C87_example : consistent grid_mesh /\ n_piece grid_state <> [] /\
  forall n i, nth n (n_piece grid_state) None = Some i -> exists a b, nth_error (n_pieces grid_state) i = Some (a, b) /\ a < b < length (n_land grid_state).
Proof. exact grid_snap_conditions. Qed.
(** Opposite sides of the mesh end up on each other. *)
Theorem C87_collapse_refuted : exists act m', snap flat_line angle_order grid_types grid_mesh (Some grid_state) = Ok (Some (act, m')) /\
  nth_error (m_nodes grid_mesh) 1 <> nth_error (m_nodes grid_mesh) 7 /\ nth_error (m_nodes m') 1 = nth_error (m_nodes m') 7.
Proof. exact collapse. Qed.
(** Snapping a second time moves a node that is on the land boundary. *)
Theorem C87_twice_refuted : exists types m s act m' act' m'', snap flat_line angle_order types m (Some s) = Ok (Some (act, m')) /\
  snap flat_line angle_order types m' (Some s) = Ok (Some (act', m'')) /\ m_nodes m'' <> m_nodes m'.
Proof. exact snapping_twice. Qed.

(** C88: the pieces: the runs of points between missing ones whose first segment has a point inside the polygon, each cut in two. *)
Theorem C88_pieces : forall inside land, land <> [] -> exists rs ps, runs land missing_double 0 (length land) rs /\ pieces_of inside land = Ok ps /\
  (forall a b, In (a, b) ps -> a < b < length land) /\ NoDup (segments ps) /\
  (forall n, In n (segments ps) <-> exists a b, In (a, b) rs /\ touches inside land a = true /\ a <= n < b) /\
  ps = cut_in_two (filter (fun r => touches inside land (fst r)) rs).
Proof. exact pieces_meaning. Qed.
Example C88_example : pieces_of inside_strip beach = Ok [(0, 1); (4, 5); (1, 2)].
Proof. exact beach_facts. Qed.
(** A run that enters the polygon later is lost. *)
Theorem C88_first_refuted : exists inside land, touches inside land 2 = true /\ touches inside land 3 = true /\ pieces_of inside land = Ok [].
Proof. exact shore_lost. Qed.

Print Assumptions C81_nearest.
Print Assumptions C81_on_land_refuted.
Print Assumptions C82_close_edge.
Print Assumptions C82_no_edge.
Print Assumptions C83_faces.
Print Assumptions C83_nodes.
Print Assumptions C83_two_faces_refuted.
Print Assumptions C84_shortest.
Print Assumptions C84_real.
Print Assumptions C84_node_zero_refuted.
Print Assumptions C84_on_land_refuted.
Print Assumptions C85_path.
Print Assumptions C86_find_partial.
Print Assumptions C86_nothing.
Print Assumptions C86_far_refuted.
Print Assumptions C87_snap.
Print Assumptions C87_collapse_refuted.
Print Assumptions C87_twice_refuted.
Print Assumptions C88_pieces.
Print Assumptions C88_first_refuted.
