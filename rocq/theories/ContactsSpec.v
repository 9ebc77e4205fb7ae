(** What the properties of contacts are stated with. *)
From Verif Require Import Base FloatModel MeshModel MeshSpec FaceModel FaceSpec FaceUseSpec ContactsModel.

(** [c] followed by contacts between existing nodes and faces. *)
Definition append (c : contacts) (l : list (nat * nat)) : contacts :=
  Contacts (c_1d c ++ map (fun x => Some (fst x)) l) (c_2d c ++ map (fun x => Some (snd x)) l).
(** The faces in contact with node [n]. *)
Definition faces_of (n : nat) (l : list (nat * nat)) : list nat := map snd (filter (fun x => fst x =? n) l).

(** The two-dimensional mesh is up to date: faces and centres belong to its edges and nodes. *)
Definition ready (g : mesh2) : Prop :=
  usable (g_mesh g) (g_faces g) /\ length (g_circum g) = num_faces (g_faces g) /\ length (g_mass g) = num_faces (g_faces g) /\
  forall es e, In es (faces_edges (g_faces g)) -> In e es ->
    exists a b, nth_error (m_edges (g_mesh g)) e = Some (Some a, Some b) /\ a < length (m_nodes (g_mesh g)) /\ b < length (m_nodes (g_mesh g)).

(** Face [i] has an edge that belongs to no other face. *)
Definition on_boundary (f : faces) (i : nat) : Prop := exists e es, nth_error (faces_edges f) i = Some es /\ In e es /\ faces_with f e = [i].

(** Node of a mesh, centre of a face. *)
Definition node_of (m : mesh) (n : nat) : point := nth n (m_nodes m) missing_point.
Definition centre_of (g : mesh2) (i : nat) : point := nth i (g_circum g) missing_point.

(** Node [n] may get contacts. *)
Definition unmasked (mask : list bool) (n : nat) : Prop := nth_error mask n = Some true.

(** The corners of face [i]; the point [p] lies in it and it is one of the faces at the edge found for [p]. *)
Definition corners (g : mesh2) (i : nat) : list point := map (node_of (g_mesh g)) (nth i (faces_nodes (g_faces g)) []).
Definition located (in_polygon : point -> list point -> bool) (nearest_edge : mesh -> point -> option nat) (g : mesh2) (p : point) (i : nat) : Prop :=
  exists e, nearest_edge (g_mesh g) p = Some e /\ In i (faces_with (g_faces g) e) /\ in_polygon p (corners g i) = true.

(** The segment from [p] to [q] crosses edge [e] of the mesh with ratio [r]; [e] belongs to face [i] only. *)
Definition crosses_edge (cross : point -> point -> point -> point -> bool * double * double) (g : mesh2) (p q : point) (e : nat) (r : double) : Prop :=
  exists a b r2, nth_error (m_edges (g_mesh g)) e = Some (Some a, Some b) /\ cross p q (node_of (g_mesh g) a) (node_of (g_mesh g) b) = (true, r, r2).
Definition first_crossed cross (g : mesh2) (p q : point) (i : nat) : Prop :=
  exists e r, faces_with (g_faces g) e = [i] /\ crosses_edge cross g p q e r /\
    forall e' i' r', faces_with (g_faces g) e' = [i'] -> crosses_edge cross g p q e' r' -> SFltb r' r = false.

(** [q] is the projection of node [n] seen from its neighbours. *)
Definition projection_of (project : point -> point -> point -> double -> point) (m1 : mesh) (n : nat) (factor : double) (q : point) : Prop :=
  exists a b, (a = n \/ neighbour m1 n a) /\ neighbour m1 n b /\ q = project (node_of m1 n) (node_of m1 a) (node_of m1 b) factor.

(** The end of the one-dimensional edge from [a] to [b] that is nearer to [c]; the first one when equally near. *)
Definition nearer_end (dist2 : point -> point -> double) (m1 : mesh) (a b : nat) (c : point) (n : nat) : Prop :=
  (n = a /\ SFleb (dist2 (node_of m1 a) c) (dist2 (node_of m1 b) c) = true) \/ (n = b /\ SFleb (dist2 (node_of m1 a) c) (dist2 (node_of m1 b) c) = false).

(** A contact from node [n], outside all faces, to face [i], given the contacts [before] it: [i] is the face behind the first boundary edge seen from [n]
    in one of two directions, and the contact crosses no earlier contact and no edge of the one-dimensional mesh. *)
Definition projected_contact cross project (m1 : mesh) (g : mesh2) (factor opposite : double) (before : list (nat * nat)) (n i : nat) : Prop :=
  i < num_faces (g_faces g) /\ on_boundary (g_faces g) i /\
  (exists f q, (f = factor \/ f = opposite) /\ projection_of project m1 n f q /\ first_crossed cross g (node_of m1 n) q i) /\
  (forall n' i', In (n', i') before -> crossing cross (node_of m1 n) (centre_of g i) (node_of m1 n') (centre_of g i') = false) /\
  (forall a b, In (Some a, Some b) (m_edges m1) -> crossing cross (node_of m1 n) (centre_of g i) (node_of m1 a) (node_of m1 b) = false).
Definition chosen_node (mask : list bool) (inside : point -> bool) (m1 : mesh) (n : nat) : Prop :=
  n < length (m_nodes m1) /\ unmasked mask n /\ inside (node_of m1 n) = true.
(** Nothing on the boundary is crossed between [p] and [q]; the ratio of a crossing is at most one. *)
Definition sees_nothing cross (g : mesh2) (p q : point) : Prop :=
  forall e i r, faces_with (g_faces g) e = [i] -> crosses_edge cross g p q e r -> SFltb r (double_of 2 0) = false.
(** A contact between [n] and [i] would cross a one-dimensional edge or a contact of [l]. *)
Definition blocked cross (m1 : mesh) (g : mesh2) (l : list (nat * nat)) (n i : nat) : Prop :=
  (exists a b, In (Some a, Some b) (m_edges m1) /\ crossing cross (node_of m1 n) (centre_of g i) (node_of m1 a) (node_of m1 b) = true) \/
  (exists n' i', In (n', i') l /\ crossing cross (node_of m1 n) (centre_of g i) (node_of m1 n') (centre_of g i') = true).
(** In direction [f] node [n] sees nothing, or it is in contact with the face it sees, or this contact is blocked. *)
Definition served cross project (m1 : mesh) (g : mesh2) (l : list (nat * nat)) (n : nat) (f : double) : Prop :=
  exists q, projection_of project m1 n f q /\
    (sees_nothing cross g (node_of m1 n) q \/ exists i, first_crossed cross g (node_of m1 n) q i /\ (In (n, i) l \/ blocked cross m1 g l n i)).
(** The contacts [l] of the nodes below [k]. *)
Definition single_contacts cross project in_polygon nearest_edge mask inside (m1 : mesh) (g : mesh2) (factor opposite : double) (k : nat) (l : list (nat * nat)) : Prop :=
  let located n i := located in_polygon nearest_edge g (node_of m1 n) i in
  (forall n i, In (n, i) l -> chosen_node mask inside m1 n /\ i < num_faces (g_faces g)) /\
  (forall n i, n < k -> chosen_node mask inside m1 n -> located n i -> exists j, faces_of n l = [j] /\ located n j) /\
  (forall n, (forall i, ~ located n i) -> length (faces_of n l) <= 2) /\
  (forall l1 n i l2, l = l1 ++ (n, i) :: l2 -> (forall i, ~ located n i) -> projected_contact cross project m1 g factor opposite l1 n i) /\
  (forall n f, n < k -> chosen_node mask inside m1 n -> (forall i, ~ located n i) -> f = factor \/ f = opposite -> served cross project m1 g l n f).

(** Multiple contacts: node [n] and face [i] may be connected because of the one-dimensional edge from [a] to [b]. *)
Definition multiple_contact cross dist2 in_polygon nearest_edge (mask : list bool) (m1 : mesh) (g : mesh2) (a b n i : nat) : Prop :=
  (exists e r, In e (nth i (faces_edges (g_faces g)) []) /\ crosses_edge cross g (node_of m1 a) (node_of m1 b) e r) /\
  nearer_end dist2 m1 a b (centre_of g i) n /\ unmasked mask n /\ exists j, located in_polygon nearest_edge g (node_of m1 n) j.
(** Face [i] is found around node [n]. *)
Definition near (near_faces : list point -> point -> nat -> option (list nat)) (m1 : mesh) (g : mesh2) (n i : nat) : Prop :=
  exists l, near_faces (g_circum g) (node_of m1 n) n = Some l /\ In i l.

(** Boundary contacts: node [n] may be connected to face [i]. *)
Definition boundary_contact near_faces (mask : list bool) (inside : point -> bool) (m1 : mesh) (g : mesh2) (n i : nat) : Prop :=
  n < length (m_nodes m1) /\ unmasked mask n /\ near near_faces m1 g n i /\ on_boundary (g_faces g) i /\ inside (centre_of g i) = true.

(** The existing items of a list. *)
Definition some_of {A} (l : list (option A)) : list A := flat_map (fun x => match x with Some a => [a] | None => [] end) l.
Definition mass_of_face (g : mesh2) (i : nat) : point := nth i (g_mass g) missing_point.
(** [c] followed by contacts that may be missing. *)
Definition append_opt (c : contacts) (l : list (option (nat * nat))) : contacts :=
  Contacts (c_1d c ++ map (option_map fst) l) (c_2d c ++ map (option_map snd) l).
(** Face [i] lies in polygon [j] and [n] is the node found for its centre. *)
Definition polygon_candidate nearest_node (polygon_of : point -> option nat) (m1 : mesh) (g : mesh2) (j n i : nat) : Prop :=
  i < num_faces (g_faces g) /\ polygon_of (mass_of_face g i) = Some j /\ nearest_node m1 (mass_of_face g i) = Some n.

(** Why contacts are not computed: a mask of the wrong length or an empty mesh. *)
Definition unprepared (mask : list bool) (m1 : mesh) (g : mesh2) : Prop :=
  length mask <> length (m_nodes m1) \/ m_nodes m1 = [] \/ m_nodes (g_mesh g) = [].
(** An edge without two valid ends; a node without listed edges once the mesh is administrated. *)
Definition dead_edge (m : mesh) : Prop := exists e, In e (m_edges m) /\ live (m_nodes m) e = false.
Definition lonely_node order (m : mesh) : Prop := exists m' n, administrate order m = Ok m' /\ n < length (m_nodes m') /\ degree_of m' n = 0.
