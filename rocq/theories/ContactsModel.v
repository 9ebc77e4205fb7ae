(** Contacts between a one-dimensional and a two-dimensional mesh.
    Source: /repo/libs/MeshKernel/src/Contacts.cpp ("Contacts.cpp" below).

    Simplifications.  Segment intersection, distances, projected points, point-in-polygon tests, circumcentres and mass centres, and what the
    search trees find are parameters (arbitrary functions).  std::reserve and m_areComputed are not modelled. *)
From Verif Require Import Base FloatModel MeshModel FaceModel.

(** m_mesh1dIndices, m_mesh2dIndices, Contacts.hpp *)
Record contacts := Contacts { c_1d : list (option nat); c_2d : list (option nat) }.
Definition no_contacts : contacts := Contacts [] [].
Definition add_contact (c : contacts) (n f : option nat) : contacts := Contacts (c_1d c ++ [n]) (c_2d c ++ [f]).

(** The two-dimensional mesh with its faces, m_facesCircumcenters and m_facesMassCenters, and m_facesRTreeRequiresUpdate. *)
Record mesh2 := Mesh2 { g_mesh : mesh; g_faces : faces; g_circum : list point; g_mass : list point; g_faces_update : bool }.

(** Mesh::Node, Mesh.hpp:531-539, and Mesh::GetEdge, Mesh.hpp:549-557 *)
Definition checked_node (m : mesh) (i : option nat) : outcome point :=
  match i with Some i => match nth_error (m_nodes m) i with Some p => Ok p | None => Throw ConstraintErr end | None => Throw ConstraintErr end.
Definition checked_edge (m : mesh) (e : nat) : outcome edge :=
  match nth_error (m_edges m) e with Some ed => Ok ed | None => Throw ConstraintErr end.
Definition edge_ends (m : mesh) (e : nat) : outcome (point * point) :=
  let! ed := checked_edge m e in
  let! a := checked_node m (fst ed) in
  let! b := checked_node m (snd ed) in
  Ok (a, b).

Definition one : double := double_of 1 0.
(** std::numeric_limits<double>::max() *)
Definition largest_double : double := double_of (2 ^ 53 - 1) 971.
Definition strictly_between (r : double) : bool := SFltb (double_of 0 0) r && SFltb r one.

Section Contacts.
  Variable order : list point -> list edge -> nat -> list (option nat) -> list (option nat).
  Variable clockwise : projection -> list point -> bool.
  Variable circum_of mass_of : mesh -> faces -> list point.
  Variable cross : point -> point -> point -> point -> bool * double * double. (* AreSegmentsCrossing: crossing, two ratios *)
  Variable dist2 : point -> point -> double.                                   (* ComputeDistance, ComputeSquaredDistance *)
  Variable project : point -> point -> point -> double -> point.               (* node + normal * length * factor, Mesh1D.cpp:98-101, 113-116 *)
  Variable in_polygon : point -> list point -> bool.                           (* IsPointInPolygonNodes *)
  Variable nearest_edge : mesh -> point -> option nat.                         (* nearest edge centre; None: empty tree *)
  Variable nearest_node : mesh -> point -> option nat.                         (* nearest node; None: empty tree *)
  Variable near_faces : list point -> point -> nat -> option (list nat).       (* face centres around a node; None: empty tree *)

  Definition crossing (a b c d : point) : bool :=
    let '(x, r1, r2) := cross a b c d in x && strictly_between r1 && strictly_between r2.

  (** Mesh2D::Administrate *)
  Definition administrate_faces (g : mesh2) : outcome mesh2 :=
    let! (m, f) := administrate2d order clockwise (g_mesh g) in
    Ok (Mesh2 m f (circum_of m f) (mass_of m f) (g_faces_update g)).

  (** PointFaceIndices, Mesh2D.cpp:1882-1913, for one point; FindLocationIndex throws for an empty tree. *)
  Fixpoint containing_face (m : mesh) (f : faces) (p : point) (l : list (option nat)) : outcome (option nat) :=
    match l with
    | [] => Ok None
    | i :: t =>
        let! ns := vget_idx (faces_nodes f) i in
        let! ps := read_all (m_nodes m) ns in
        if in_polygon p ps then Ok i else containing_face m f p t
    end.
  Definition face_entries (ef : option nat * option nat) (k : nat) : outcome (list (option nat)) :=
    match k with 0 => Ok [] | 1 => Ok [fst ef] | 2 => Ok [fst ef; snd ef] | _ => UB end.
  Definition point_face (g : mesh2) (p : point) : outcome (option nat) :=
    match nearest_edge (g_mesh g) p with
    | None => Throw AlgorithmErr
    | Some e =>
        let! k := vget (edges_num_faces (g_faces g)) e in
        match k with
        | 0 => Ok None
        | _ =>
            let! ef := vget (edges_faces (g_faces g)) e in
            let! l := face_entries ef k in
            containing_face (g_mesh g) (g_faces g) p l
        end
    end.
  Fixpoint point_faces (g : mesh2) (ps : list point) : outcome (list (option nat)) :=
    match ps with [] => Ok [] | p :: t => let! f := point_face g p in let! r := point_faces g t in Ok (f :: r) end.

  (** Validate, Contacts.cpp:500-512 *)
  Definition validate (m1 : mesh) (g : mesh2) : outcome unit :=
    if length (m_nodes m1) =? 0 then Throw AlgorithmErr
    else if length (m_nodes (g_mesh g)) =? 0 then Throw AlgorithmErr else Ok tt.
  (** The common start, for instance Contacts.cpp:27-38 *)
  Definition prepare (mask : list bool) (m1 : mesh) (g : mesh2) : outcome mesh :=
    if negb (length mask =? length (m_nodes m1)) then Throw AlgorithmErr
    else
      let! m1 := administrate order m1 in
      let! _ := validate m1 g in
      Ok m1.

  (** ComputeProjectedNode, Mesh1D.cpp:83-117 *)
  Definition projected_node (m1 : mesh) (n : nat) (factor : double) : outcome point :=
    let! k := vget (m_nodesNumEdges m1) n in
    let! row := vget (m_nodesEdges m1) n in
    match k with
    | 0 => Throw AlgorithmErr
    | 1 =>
        let! e := vget row 0 in
        let! ed := vget_idx (m_edges m1) e in
        let! p := vget (m_nodes m1) n in
        let! q := vget_idx (m_nodes m1) (other_node ed n) in
        Ok (project p p q factor)
    | _ =>
        let! e1 := vget row 0 in
        let! e2 := vget row 1 in
        let! ed1 := vget_idx (m_edges m1) e1 in
        let! ed2 := vget_idx (m_edges m1) e2 in
        let! a := vget_idx (m_nodes m1) (other_node ed1 n) in
        let! b := vget_idx (m_nodes m1) (other_node ed2 n) in
        let! p := vget (m_nodes m1) n in
        Ok (project p a b factor)
    end.

  (** IsSegmentCrossingABoundaryEdge, Mesh2D.cpp:1915-1948.  State: best ratio, face, edge. *)
  Definition boundary_step (g : mesh2) (p q : point) (acc : double * option nat * option nat) (e : nat)
    : outcome (double * option nat * option nat) :=
    let '(best, face, found) := acc in
    let! k := vget (edges_num_faces (g_faces g)) e in
    if negb (k =? 1) then Ok acc
    else
      let! ed := vget (m_edges (g_mesh g)) e in
      let! a := vget_idx (m_nodes (g_mesh g)) (fst ed) in
      let! b := vget_idx (m_nodes (g_mesh g)) (snd ed) in
      let '(x, r, _) := cross p q a b in
      if x && SFltb r best then
        let! ef := vget (edges_faces (g_faces g)) e in Ok (r, fst ef, Some e)
      else Ok acc.
  Definition crossed_boundary (g : mesh2) (p q : point) : outcome (option nat * option nat) :=
    let! (_, face, e) := fold_out (boundary_step g p q) (seq 0 (length (m_edges (g_mesh g)))) (largest_double, None, None) in
    Ok (face, e).

  (** IsContactIntersectingMesh1d, Contacts.cpp:93-118 *)
  Fixpoint crosses_mesh1d (m1 : mesh) (p c : point) (es : list nat) : outcome bool :=
    match es with
    | [] => Ok false
    | e :: t =>
        let! (a, b) := edge_ends m1 e in
        if crossing p c a b then Ok true else crosses_mesh1d m1 p c t
    end.
  (** IsContactIntersectingContact, Contacts.cpp:120-143 *)
  Fixpoint crosses_contact (m1 : mesh) (g : mesh2) (p c : point) (l1 l2 : list (option nat)) : outcome bool :=
    match l1, l2 with
    | [], _ => Ok false
    | n :: t1, f :: t2 =>
        let! a := checked_node m1 n in
        let! b := vget_idx (g_circum g) f in
        if crossing p c a b then Ok true else crosses_contact m1 g p c t1 t2
    | _ :: _, [] => UB
    end.

  (** Connect1dNodesWithCrossingFaces, Contacts.cpp:77-91 *)
  Definition connect_projected (m1 : mesh) (g : mesh2) (n : nat) (factor : double) (c : contacts) : outcome contacts :=
    let! q := projected_node m1 n factor in
    let! p := checked_node m1 (Some n) in
    let! (face, e) := crossed_boundary g p q in
    match face, e with
    | Some f, Some _ =>
        let! centre := vget (g_circum g) f in
        let! x := crosses_mesh1d m1 p centre (seq 0 (length (m_edges m1))) in
        if x then Ok c
        else
          let! y := crosses_contact m1 g p centre (c_1d c) (c_2d c) in
          if y then Ok c else Ok (add_contact c (Some n) (Some f))
    | _, _ => Ok c
    end.

  (** ComputeSingleContacts, Contacts.cpp:23-75.  [inside] is Polygons::PointsInPolygons for one point. *)
  Definition single_step (m1 : mesh) (g : mesh2) (mask : list bool) (inside : point -> bool) (factor opposite : double) (node_faces : list (option nat))
    (c : contacts) (n : nat) : outcome contacts :=
    let! p := vget (m_nodes m1) n in
    if negb (inside p) then Ok c
    else
      let! u := match mask with [] => Ok true | _ => vget mask n end in
      if negb u then Ok c
      else
        let! f := vget node_faces n in
        match f with
        | Some f => Ok (add_contact c (Some n) (Some f))
        | None =>
            let! c := connect_projected m1 g n factor c in
            connect_projected m1 g n opposite c
        end.
  Definition compute_single (mask : list bool) (inside : point -> bool) (factor opposite : double) (m1 : mesh) (g : mesh2) (c : contacts) : outcome contacts :=
    let! m1 := prepare mask m1 g in
    let! node_faces := point_faces g (m_nodes m1) in
    fold_out (single_step m1 g mask inside factor opposite node_faces) (seq 0 (length (m_nodes m1))) c.

  (** ComputeMultipleContacts, Contacts.cpp:145-245 *)
  Fixpoint multiple_face (m1 : mesh) (g : mesh2) (mask : list bool) (node_faces : list (option nat)) (a b : option nat) (face : nat) (es : list nat) : outcome (option nat) :=
    match es with
    | [] => Ok None
    | e :: t =>
        let! (q1, q2) := edge_ends (g_mesh g) e in
        let! p1 := checked_node m1 a in
        let! p2 := checked_node m1 b in
        let '(x, _, _) := cross p1 p2 q1 q2 in
        if negb x then multiple_face m1 g mask node_faces a b face t
        else
          let! centre := vget (g_circum g) face in
          let n := if SFleb (dist2 p1 centre) (dist2 p2 centre) then a else b in
          let! u := match mask with [] => Ok true | _ => vget_idx mask n end in
          if negb u then multiple_face m1 g mask node_faces a b face t
          else
            let! nf := vget_idx node_faces n in
            match nf with None => multiple_face m1 g mask node_faces a b face t | Some _ => Ok n end
    end.
  Definition multiple_step (m1 : mesh) (g : mesh2) (mask : list bool) (node_faces : list (option nat)) (a b : option nat) (st : list bool * contacts) (face : nat)
    : outcome (list bool * contacts) :=
    let (connected, c) := st in
    let! x := vget connected face in
    if x then Ok st
    else
      let! k := vget (num_faces_nodes (g_faces g)) face in
      let! es := vget (faces_edges (g_faces g)) face in
      if length es <? k then UB
      else
        let! n := multiple_face m1 g mask node_faces a b face (firstn k es) in
        match n with
        | Some n => let! connected := vset face true connected in Ok (connected, add_contact c (Some n) (Some face))
        | None => Ok st
        end.
  Definition multiple_edge (m1 : mesh) (g : mesh2) (mask : list bool) (node_faces : list (option nat)) (st : list bool * contacts) (e : nat) : outcome (list bool * contacts) :=
    let! ed := checked_edge m1 e in
    match fst ed with
    | None => UB
    | Some a =>
        let! p := checked_node m1 (Some a) in
        match near_faces (g_circum g) p a with
        | None => Throw AlgorithmErr
        | Some l => fold_out (multiple_step m1 g mask node_faces (fst ed) (snd ed)) l st
        end
    end.
  Definition compute_multiple (mask : list bool) (m1 : mesh) (g : mesh2) (c : contacts) : outcome (mesh2 * contacts) :=
    let! m1 := prepare mask m1 g in
    let! node_faces := point_faces g (m_nodes m1) in
    let connected := repeat false (num_faces (g_faces g)) in
    let! g := if g_faces_update g then let! g := administrate_faces g in Ok (Mesh2 (g_mesh g) (g_faces g) (g_circum g) (g_mass g) false) else Ok g in
    let! (_, c) := fold_out (multiple_edge m1 g mask node_faces) (seq 0 (length (m_edges m1))) (connected, c) in
    Ok (g, c).

  (** FindLocationIndex, Mesh.cpp:673-710, for nodes: one nearest node is searched for. *)
  Definition find_node (m1 : mesh) (mask : list bool) (p : point) : outcome nat :=
    match nearest_node m1 p with
    | None => Throw AlgorithmErr
    | Some n => match mask with [] => Ok n | _ => let! u := vget mask n in if u then Ok n else Throw AlgorithmErr end
    end.

  (** ComputeContactsWithPolygons, Contacts.cpp:247-316.  [polygon_of] is IsPointInPolygons; the state is, for each polygon, distance, node and
      face; a distance is never close to the missing value. *)
  Definition polygon_step (m1 : mesh) (g : mesh2) (mask : list bool) (polygon_of : point -> option nat)
    (acc : list (option (double * nat * nat))) (face : nat) : outcome (list (option (double * nat * nat))) :=
    let! centre := vget (g_mass g) face in
    match polygon_of centre with
    | None => Ok acc
    | Some i =>
        let! n := find_node m1 mask centre in
        let! p := checked_node m1 (Some n) in
        let d := dist2 centre p in
        let! old := vget acc i in
        if match old with None => true | Some (d0, _, _) => SFltb d d0 end then vset i (Some (d, n, face)) acc else Ok acc
    end.
  Definition polygon_contact (c : contacts) (x : option (double * nat * nat)) : contacts :=
    match x with Some (_, n, f) => add_contact c (Some n) (Some f) | None => add_contact c None None end.
  Definition compute_with_polygons (mask : list bool) (polygon_of : point -> option nat) (num_polygons : nat) (m1 : mesh) (g : mesh2) (c : contacts)
    : outcome contacts :=
    if negb (length mask =? length (m_nodes m1)) then Throw AlgorithmErr
    else if num_polygons =? 0 then Ok c
    else
      let! m1 := prepare mask m1 g in
      let! best := fold_out (polygon_step m1 g mask polygon_of) (seq 0 (num_faces (g_faces g))) (repeat None num_polygons) in
      Ok (fold_left polygon_contact best c).

  (** ComputeContactsWithPoints, Contacts.cpp:318-364 *)
  Definition point_step (m1 : mesh) (c : contacts) (x : point * option nat) : outcome contacts :=
    match snd x with
    | None => Ok c
    | Some f => match nearest_node m1 (fst x) with None => Throw AlgorithmErr | Some n => Ok (add_contact c (Some n) (Some f)) end
    end.
  Definition compute_with_points (mask : list bool) (points : list point) (m1 : mesh) (g : mesh2) (c : contacts) : outcome contacts :=
    let! m1 := prepare mask m1 g in
    let! fs := point_faces g points in
    fold_out (point_step m1) (combine points fs) c.

  (** IsFaceOnBoundary, Mesh.cpp:765-780 *)
  Fixpoint has_boundary_edge (f : faces) (es : list nat) : outcome bool :=
    match es with
    | [] => Ok false
    | e :: t => let! k := vget (edges_num_faces f) e in if k =? 1 then Ok true else has_boundary_edge f t
    end.
  Definition face_on_boundary (f : faces) (face : nat) : outcome bool :=
    let! es := vget (faces_edges f) face in has_boundary_edge f es.

  (** ComputeBoundaryContacts, Contacts.cpp:366-473.  State: isValidFace, faceTo1DNode. *)
  Definition boundary_face (m1 : mesh) (g : mesh2) (inside : point -> bool) (n : nat) (st : list bool * list (option nat)) (face : nat)
    : outcome (list bool * list (option nat)) :=
    let (valid, node_of) := st in
    let! v := vget valid face in
    if negb v then Ok st
    else
      let! b := face_on_boundary (g_faces g) face in
      if negb b then let! valid := vset face false valid in Ok (valid, node_of)
      else
        let! centre := vget (g_circum g) face in
        if negb (inside centre) then let! valid := vset face false valid in Ok (valid, node_of)
        else
          let! old := vget node_of face in
          match old with
          | None => let! node_of := vset face (Some n) node_of in Ok (valid, node_of)
          | Some n0 =>
              let! p := checked_node m1 (Some n) in
              let! p0 := checked_node m1 (Some n0) in
              if SFltb (dist2 p centre) (dist2 p0 centre) then let! node_of := vset face (Some n) node_of in Ok (valid, node_of) else Ok st
          end.
  Definition boundary_node (m1 : mesh) (g : mesh2) (mask : list bool) (inside : point -> bool) (st : list bool * list (option nat)) (n : nat)
    : outcome (list bool * list (option nat)) :=
    let! u := match mask with [] => Ok true | _ => vget mask n end in
    if negb u then Ok st
    else
      let! p := checked_node m1 (Some n) in
      match near_faces (g_circum g) p n with
      | None => Throw AlgorithmErr
      | Some l => fold_out (boundary_face m1 g inside n) l st
      end.
  Definition collect_boundary (st : list bool * list (option nat)) (c : contacts) (face : nat) : outcome contacts :=
    let! n := vget (snd st) face in
    match n with
    | None => Ok c
    | Some n => let! v := vget (fst st) face in if v then Ok (add_contact c (Some n) (Some face)) else Ok c
    end.
  Definition compute_boundary (mask : list bool) (inside : point -> bool) (m1 : mesh) (g : mesh2) (c : contacts) : outcome contacts :=
    let! m1 := prepare mask m1 g in
    let! st := fold_out (boundary_node m1 g mask inside) (seq 0 (length (m_nodes m1)))
                 (repeat true (num_faces (g_faces g)), repeat None (num_faces (g_faces g))) in
    fold_out (collect_boundary st) (seq 0 (num_faces (g_faces g))) c.

  (** SetIndices, Contacts.cpp:475-498 *)
  Definition set_indices (l1 l2 : list (option nat)) : outcome contacts :=
    match l1, l2 with
    | [], _ | _, [] => Throw AlgorithmErr
    | _, _ => if length l1 =? length l2 then Ok (Contacts l1 l2) else Throw AlgorithmErr
    end.
End Contacts.
