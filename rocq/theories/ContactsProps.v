(** Properties C49 and C67: contacts between a one-dimensional and a two-dimensional mesh, and the search for the face of a point.  The geometry and the
    search trees are arguments: [cross] is AreSegmentsCrossing, [dist2] the squared distance, [project] the projected point next to a node, [in_polygon] the
    test for a point in a closed polygon; [nearest_edge], [nearest_node] and [near_faces] are the answers of the trees, which only name existing items. *)
From Coq Require Import Permutation Sorted.
From Verif Require Import Base FloatModel MeshModel MeshSpec MeshUndo MeshWitness FaceModel FaceSpec FaceUseMain ContactsModel ContactsSpec ContactsOther ContactsWitness.

Section Contacts.
  Variable order : list point -> list edge -> nat -> list (option nat) -> list (option nat).
  Hypothesis order_perm : forall nodes edges n row, Permutation row (order nodes edges n row).
  Variable clockwise : projection -> list point -> bool.
  Variable circum_of mass_of : mesh -> faces -> list point.
  Hypothesis circum_length : forall m f, length (circum_of m f) = num_faces f.
  Hypothesis mass_length : forall m f, length (mass_of m f) = num_faces f.
  Variable cross : point -> point -> point -> point -> bool * double * double.
  Variable dist2 : point -> point -> double.
  Variable project : point -> point -> point -> double -> point.
  Variable in_polygon : point -> list point -> bool.
  Variable nearest_edge nearest_node : mesh -> point -> option nat.
  Variable near_faces : list point -> point -> nat -> option (list nat).
  Hypothesis nearest_edge_in : forall m p e, nearest_edge m p = Some e -> e < length (m_edges m).
  Hypothesis nearest_node_in : forall m p n, nearest_node m p = Some n -> n < length (m_nodes m).
  Hypothesis near_faces_in : forall l p n r i, near_faces l p n = Some r -> In i r -> i < length l.

  (** An administrated mesh meets the hypotheses below. *)
  Theorem C49_administration_makes_ready : forall g g', well_indexed (m_nodes (g_mesh g)) (m_edges (g_mesh g)) -> administrate_faces order clockwise circum_of mass_of g = Ok g' ->
    ready g' /\ administrate_faces order clockwise circum_of mass_of g' = Ok g'.
  Proof. exact (fun g g' => administrate_faces_ready order order_perm clockwise circum_of mass_of g g' circum_length mass_length). Qed.

  (** C49, single contacts: nothing is read out of range; only unmasked nodes inside the polygons are connected, a node lying in a face to that face only, another
      one at most once in each of two directions, to the face behind the first boundary edge it sees, unless the contact would cross the one-dimensional mesh or
      an earlier contact. *)
  Theorem C49_single_partial : forall mask inside factor opposite m1 g, consistent m1 -> ready g ->
    let r := compute_single order cross project in_polygon nearest_edge mask inside factor opposite m1 g no_contacts in
    r <> UB /\
    (forall e, r = Throw e -> unprepared mask m1 g \/ (exists p, nearest_edge (g_mesh g) p = None) \/ dead_edge m1 \/ lonely_node order m1) /\
    forall c, r = Ok c -> exists m1' l, administrate order m1 = Ok m1' /\ c = append no_contacts l /\
      single_contacts cross project in_polygon nearest_edge mask inside m1' g factor opposite (length (m_nodes m1')) l.
  Proof. exact (single_final order order_perm mass_of cross dist2 project in_polygon nearest_edge nearest_edge_in). Qed.

  (** C49, multiple contacts: every face gets at most one contact, with the nearer end of a one-dimensional edge crossing the face; faces near a node get one. *)
  Theorem C49_multiple_partial : forall mask m1 g c, consistent m1 -> ready g -> ~ dead_edge m1 ->
    (g_faces_update g = true -> administrate_faces order clockwise circum_of mass_of g = Ok g) ->
    let r := compute_multiple order clockwise circum_of mass_of cross dist2 in_polygon nearest_edge near_faces mask m1 g c in
    r <> UB /\
    (forall e, r = Throw e -> unprepared mask m1 g \/ (exists p, nearest_edge (g_mesh g) p = None) \/ (exists p n, near_faces (g_circum g) p n = None)) /\
    forall x, r = Ok x -> exists m1' l, administrate order m1 = Ok m1' /\ fst x = Mesh2 (g_mesh g) (g_faces g) (g_circum g) (g_mass g) false /\ snd x = append c l /\ NoDup (map snd l) /\
        (forall n i, In (n, i) l -> n < length (m_nodes m1') /\ i < num_faces (g_faces g) /\
           exists a b, In (Some a, Some b) (m_edges m1') /\ near near_faces m1' g a i /\ multiple_contact cross dist2 in_polygon nearest_edge mask m1' g a b n i) /\
        (forall a b n i, In (Some a, Some b) (m_edges m1') -> near near_faces m1' g a i -> multiple_contact cross dist2 in_polygon nearest_edge mask m1' g a b n i -> In i (map snd l)).
  Proof. exact (multiple_final order order_perm clockwise circum_of mass_of cross dist2 in_polygon nearest_edge near_faces nearest_edge_in near_faces_in). Qed.

  (** C49, boundary contacts: one contact for every face on the boundary near an unmasked node, with a nearest such node. *)
  Theorem C49_boundary_partial : forall mask inside m1 g c, consistent m1 -> ready g ->
    let r := compute_boundary order dist2 near_faces mask inside m1 g c in
    r <> UB /\
    (forall e, r = Throw e -> unprepared mask m1 g \/ exists p n, near_faces (g_circum g) p n = None) /\
    forall x, r = Ok x -> exists m1' l, administrate order m1 = Ok m1' /\ x = append c l /\ StronglySorted lt (map snd l) /\
        (forall n i, In (n, i) l -> boundary_contact near_faces mask inside m1' g n i /\
           forall n', boundary_contact near_faces mask inside m1' g n' i -> SFltb (dist2 (node_of m1' n') (centre_of g i)) (dist2 (node_of m1' n) (centre_of g i)) = false) /\
        (forall n i, boundary_contact near_faces mask inside m1' g n i -> In i (map snd l)).
  Proof. exact (boundary_final order order_perm dist2 near_faces near_faces_in). Qed.

  (** C49, contacts with polygons: if every polygon holds the centre of a face there is one contact for each polygon, with a face whose centre is nearest to the
      node found for it. *)
  Theorem C49_polygons_partial : forall mask polygon_of num m1 g c, consistent m1 -> ready g -> (forall p j, polygon_of p = Some j -> j < num) ->
    (forall j m1', administrate order m1 = Ok m1' -> j < num -> exists n i, polygon_candidate nearest_node polygon_of m1' g j n i) ->
    let r := compute_with_polygons order dist2 nearest_node mask polygon_of num m1 g c in
    r <> UB /\
    (forall e, r = Throw e -> unprepared mask m1 g \/ exists m1' i n, administrate order m1 = Ok m1' /\ i < num_faces (g_faces g) /\ polygon_of (mass_of_face g i) <> None /\
        (nearest_node m1' (mass_of_face g i) = None \/ (nearest_node m1' (mass_of_face g i) = Some n /\ ~ unmasked mask n))) /\
    forall x, r = Ok x -> exists m1' l, administrate order m1 = Ok m1' /\ x = append c l /\ length l = num /\
        forall j n i, nth_error l j = Some (n, i) -> polygon_candidate nearest_node polygon_of m1' g j n i /\ n < length (m_nodes m1') /\ unmasked mask n /\
           forall n' i', polygon_candidate nearest_node polygon_of m1' g j n' i' -> SFltb (dist2 (mass_of_face g i') (node_of m1' n')) (dist2 (mass_of_face g i) (node_of m1' n)) = false.
  Proof. exact (polygons_final order order_perm dist2 nearest_node nearest_node_in). Qed.

  (** C49, contacts with points: each point found in a face connects that face with the node nearest to the point. *)
  Theorem C49_points_partial : forall mask points m1 g c, consistent m1 -> ready g ->
    let r := compute_with_points order in_polygon nearest_edge nearest_node mask points m1 g c in
    r <> UB /\
    (forall e, r = Throw e -> unprepared mask m1 g \/ (exists p, nearest_edge (g_mesh g) p = None) \/ (exists m1' p, administrate order m1 = Ok m1' /\ nearest_node m1' p = None)) /\
    forall x, r = Ok x -> exists m1' l, administrate order m1 = Ok m1' /\ x = append c (some_of l) /\ length l = length points /\
        forall k p, nth_error points k = Some p ->
          (exists n i, nth_error l k = Some (Some (n, i)) /\ nearest_node m1' p = Some n /\ i < num_faces (g_faces g) /\ located in_polygon nearest_edge g p i) \/
          (nth_error l k = Some None /\ forall i, ~ located in_polygon nearest_edge g p i).
  Proof. exact (points_final order order_perm dist2 in_polygon nearest_edge nearest_node nearest_edge_in). Qed.

  (** C49: starting again from no contacts, with the meshes as the first computation left them, gives the same contacts. *)
  Theorem C49_recomputation_partial : forall mask inside factor opposite polygon_of num points m1 m1' g c, consistent m1 -> administrate order m1 = Ok m1' ->
    compute_single order cross project in_polygon nearest_edge mask inside factor opposite m1' g c = compute_single order cross project in_polygon nearest_edge mask inside factor opposite m1 g c /\
    compute_boundary order dist2 near_faces mask inside m1' g c = compute_boundary order dist2 near_faces mask inside m1 g c /\
    compute_with_polygons order dist2 nearest_node mask polygon_of num m1' g c = compute_with_polygons order dist2 nearest_node mask polygon_of num m1 g c /\
    compute_with_points order in_polygon nearest_edge nearest_node mask points m1' g c = compute_with_points order in_polygon nearest_edge nearest_node mask points m1 g c.
  Proof. exact (again order order_perm cross dist2 project in_polygon nearest_edge nearest_node near_faces). Qed.
  Theorem C49_multiple_recomputation_partial : forall mask m1 m1' g g' c c', consistent m1 -> administrate order m1 = Ok m1' ->
    (g_faces_update g = true -> administrate_faces order clockwise circum_of mass_of g = Ok g) ->
    compute_multiple order clockwise circum_of mass_of cross dist2 in_polygon nearest_edge near_faces mask m1 g c = Ok (g', c') ->
    compute_multiple order clockwise circum_of mass_of cross dist2 in_polygon nearest_edge near_faces mask m1' g' c = Ok (g', c').
  Proof. exact (multiple_again order order_perm clockwise circum_of mass_of cross dist2 in_polygon nearest_edge near_faces). Qed.

  (** C67: a face found for a point contains it; a face at the edge nearest to the point is found if it contains the point. *)
  Theorem C67_found_face_contains_point_partial : forall g p, ready g ->
    (nearest_edge (g_mesh g) p = None /\ point_face in_polygon nearest_edge g p = Throw AlgorithmErr) \/
    exists x, point_face in_polygon nearest_edge g p = Ok x /\
      match x with
      | Some i => i < num_faces (g_faces g) /\ in_polygon p (corners g i) = true
      | None => forall e i, nearest_edge (g_mesh g) p = Some e -> In i (faces_with (g_faces g) e) -> in_polygon p (corners g i) = false
      end.
  Proof. exact (point_face_final in_polygon nearest_edge nearest_edge_in). Qed.
End Contacts.

(** Two squares and a line through them meet the hypotheses; all five computations succeed on them. *)
Example C49_hypotheses : consistent line /\ ~ dead_edge line /\ ready two_squares /\ g_faces_update two_squares = true /\
  administrate_faces keep_order shoelace_sign ex_middles ex_middles two_squares = Ok two_squares /\ num_faces (g_faces two_squares) = 2.
Proof. exact (conj (proj1 line_ok) (conj (proj2 line_ok) two_squares_ready)). Qed.
Example C49_answers_in_range : (forall m p e, ex_nearest_edge m p = Some e -> e < length (m_edges m)) /\ (forall m p n, ex_nearest_node m p = Some n -> n < length (m_nodes m)) /\
  (forall l p n r i, ex_near_faces l p n = Some r -> In i r -> i < length l) /\ (forall m f, length (ex_middles m f) = num_faces f).
Proof. exact (conj ex_nearest_edge_in (conj ex_nearest_node_in (conj ex_near_faces_in middles_length))). Qed.
Example C49_single_contacts : compute_single keep_order ex_cross ex_project ex_in_polygon ex_nearest_edge yes4 all_inside (double_of 1 0) (fneg (double_of 1 0)) line two_squares no_contacts
  = Ok (append no_contacts [(0, 0); (1, 1); (2, 0); (3, 0)]).
Proof. exact single_example. Qed.
Example C49_multiple_contacts : exists g, compute_multiple keep_order shoelace_sign ex_middles ex_middles ex_cross ex_dist ex_in_polygon ex_nearest_edge ex_near_faces yes4 line two_squares no_contacts
  = Ok (g, append no_contacts [(0, 0); (1, 1)]).
Proof. exact multiple_example. Qed.
Example C49_boundary_contacts : compute_boundary keep_order ex_dist ex_near_faces yes4 all_inside line two_squares no_contacts = Ok (append no_contacts [(0, 0); (1, 1)]).
Proof. exact boundary_example. Qed.
Example C49_polygon_contacts : compute_with_polygons keep_order ex_dist ex_nearest_node yes4 halves 2 line two_squares no_contacts = Ok (append no_contacts [(0, 0); (1, 1)]).
Proof. exact polygons_example. Qed.
Example C49_point_contacts : compute_with_points keep_order ex_in_polygon ex_nearest_edge ex_nearest_node yes4 [pt 1 1; pt 3 1; pt 9 9] line two_squares no_contacts
  = Ok (append no_contacts [(0, 0); (1, 1)]).
Proof. exact points_example. Qed.
Example C67_face_found : ready long_mesh /\ point_face ex_in_polygon ex_nearest_edge long_mesh (pt 50 1) = Ok (Some 1).
Proof. exact (conj (proj1 long_face) long_found). Qed.

(** C49: given contacts are taken over if there are some and each has both ends, and refused otherwise. *)
Theorem C49_given_contacts : forall l1 l2, (length l1 = length l2 /\ l1 <> [] -> set_indices l1 l2 = Ok (Contacts l1 l2)) /\ (length l1 <> length l2 \/ l1 = [] -> set_indices l1 l2 = Throw AlgorithmErr).
Proof. exact set_indices_spec. Qed.
Example C49_given_example : length [Some 0; Some 2] = length [Some 1; None] /\ [Some 0; Some 2] <> [].
Proof. split; [reflexivity|discriminate]. Qed.

(** C49 is false in general.  After an edge is inserted, single and multiple contacts read the faces out of range. *)
Theorem C49_inserted_edge_refuted : (exists a e, connect_nodes keep_order (g_mesh two_squares) (Some 0) (Some 4) = Ok (Some (e, a, g_mesh stale_squares))) /\ g_faces stale_squares = g_faces two_squares /\
  compute_single keep_order ex_cross ex_project ex_in_polygon ex_nearest_edge yes4 all_inside (double_of 1 0) (fneg (double_of 1 0)) line stale_squares no_contacts = UB /\
  compute_multiple keep_order shoelace_sign ex_middles ex_middles ex_cross ex_dist ex_in_polygon ex_nearest_edge ex_near_faces yes4 line stale_squares no_contacts = UB.
Proof. exact (conj (proj1 stale_from) (conj (proj2 stale_from) (conj stale_single stale_multiple))). Qed.
(** After an edge of the one-dimensional mesh is deleted, multiple contacts read its missing ends. *)
Theorem C49_deleted_edge_refuted : (exists a, delete_edge keep_order line (Some 0) = Ok (a, cut_line)) /\
  compute_multiple keep_order shoelace_sign ex_middles ex_middles ex_cross ex_dist ex_in_polygon ex_nearest_edge ex_near_faces yes4 cut_line two_squares no_contacts = UB.
Proof. exact cut_multiple. Qed.
(** A polygon without faces gets a contact between nothing and nothing. *)
Theorem C49_empty_polygon_refuted : compute_with_polygons keep_order ex_dist ex_nearest_node yes4 second 2 line two_squares no_contacts = Ok (Contacts [None; Some 0] [None; Some 0]).
Proof. exact polygons_missing. Qed.
(** A masked node nearest to a face stops the computation although another node may be connected. *)
Theorem C49_masked_node_refuted : compute_with_polygons keep_order ex_dist ex_nearest_node [true; false; false; false] whole 1 line two_squares no_contacts = Throw AlgorithmErr.
Proof. exact polygons_masked. Qed.
(** Contacts with points ignore the mask. *)
Theorem C49_ignored_mask_refuted : compute_with_points keep_order ex_in_polygon ex_nearest_edge ex_nearest_node [false; false; false; false] [pt 1 1] line two_squares no_contacts
  = Ok (append no_contacts [(0, 0)]).
Proof. exact points_masked. Qed.
(** Computing twice on the same object doubles contacts. *)
Theorem C49_same_object_refuted : exists c, compute_single keep_order ex_cross ex_project ex_in_polygon ex_nearest_edge yes4 all_inside (double_of 1 0) (fneg (double_of 1 0)) line two_squares no_contacts = Ok c /\
  exists c', compute_single keep_order ex_cross ex_project ex_in_polygon ex_nearest_edge yes4 all_inside (double_of 1 0) (fneg (double_of 1 0)) line two_squares c = Ok c' /\ c' <> c /\ length (c_1d c) < length (c_1d c').
Proof. exact single_twice. Qed.
(** C67 is false in general: the face holding the point is missed because it is not at the edge nearest to the point. *)
Theorem C67_long_face_refuted : ready long_mesh /\ num_faces (g_faces long_mesh) = 2 /\ ex_in_polygon (pt 25 1) (corners long_mesh 1) = true /\
  point_face ex_in_polygon ex_nearest_edge long_mesh (pt 25 1) = Ok None.
Proof. exact long_face. Qed.

Print Assumptions C49_administration_makes_ready.
Print Assumptions C49_single_partial.
Print Assumptions C49_multiple_partial.
Print Assumptions C49_boundary_partial.
Print Assumptions C49_polygons_partial.
Print Assumptions C49_points_partial.
Print Assumptions C49_recomputation_partial.
Print Assumptions C49_multiple_recomputation_partial.
Print Assumptions C67_found_face_contains_point_partial.
Print Assumptions C49_given_contacts.
Print Assumptions C49_inserted_edge_refuted.
Print Assumptions C49_deleted_edge_refuted.
Print Assumptions C49_empty_polygon_refuted.
Print Assumptions C49_masked_node_refuted.
Print Assumptions C49_ignored_mask_refuted.
Print Assumptions C49_same_object_refuted.
Print Assumptions C67_long_face_refuted.
