(** Faces of a two-dimensional mesh: search for faces.
    Source: /repo/libs/MeshKernel/src/Mesh2D.cpp ("Mesh2D.cpp" below).

    Simplifications.  Face areas, mass centres and circumcentres are parallel vectors that the search never reads: not modelled here.
    Whether the nodes of a cycle are in clockwise order (Polygon::FaceAreaAndCenterOfMass, floating point) is an arbitrary function
    [clockwise] of the projection and the points. *)
From Verif Require Import Base FloatModel MeshModel.

(** m_edgesNumFaces, m_edgesFaces, m_facesNodes, m_facesEdges, m_numFacesNodes, Mesh.hpp:439-457 *)
Record faces := Faces {
  edges_num_faces : list nat;
  edges_faces : list (option nat * option nat);
  faces_nodes : list (list nat);
  faces_edges : list (list nat);
  num_faces_nodes : list nat }.

(** GetNumFaces, Mesh.hpp:246 *)
Definition num_faces (f : faces) : nat := length (faces_nodes f).

(** m_maximumNumberOfEdgesPerFace, Mesh.hpp:490 *)
Definition max_edges_per_face : nat := 6.

(** ResizeAndInitializeFaceVectors, Mesh2D.cpp:376-399 *)
Definition no_faces (m : mesh) : faces :=
  Faces (repeat 0 (length (m_edges m))) (repeat (None, None) (length (m_edges m))) [] [] [].

(** std::sort of UInt values; the missing value is the largest. *)
Definition idx_leb (a b : option nat) : bool :=
  match a, b with Some i, Some j => i <=? j | _, None => true | None, Some _ => false end.
Fixpoint sort_insert (a : option nat) (l : list (option nat)) : list (option nat) :=
  match l with [] => [a] | b :: t => if idx_leb a b then a :: l else b :: sort_insert a t end.
Definition sort_idx (l : list (option nat)) : list (option nat) := fold_right sort_insert [] l.
Fixpoint equal_neighbours (l : list (option nat)) : bool :=
  match l with a :: (b :: _) as t => eq_idx b a || equal_neighbours t | _ => false end.

(** HasDuplicateNodes, Mesh2D.cpp:288-323; HasDuplicateEdgeFaces, 325-374, after reading the faces, is the same function. *)
Definition has_duplicates (k : nat) (l : list (option nat)) : outcome bool :=
  if k =? 3 then
    let! a := vget l 0 in let! b := vget l 1 in let! c := vget l 2 in
    Ok (eq_idx a b || eq_idx a c || eq_idx b c)
  else if k =? 4 then
    let! a := vget l 0 in let! b := vget l 1 in let! c := vget l 2 in let! d := vget l 3 in
    Ok (eq_idx a b || eq_idx a c || eq_idx a d || eq_idx b c || eq_idx b d || eq_idx c d)
  else Ok (equal_neighbours (sort_idx l)).

Fixpoint read_all {A} (v : list A) (l : list nat) : outcome (list A) :=
  match l with [] => Ok [] | i :: t => let! a := vget v i in let! r := read_all v t in Ok (a :: r) end.

(** The loop of Mesh2D.cpp:441-448; stops at the first edge without faces. *)
Fixpoint one_edge_has_no_face (num : list nat) (edges : list nat) : outcome bool :=
  match edges with
  | [] => Ok false
  | e :: t => let! c := vget num e in if c =? 0 then Ok true else one_edge_has_no_face num t
  end.

(** Mesh2D.cpp:471-478: writing entry [numFace - 1] of an array of two. *)
Definition record_edge (f : nat) (acc : list nat * list (option nat * option nat)) (e : nat)
  : outcome (list nat * list (option nat * option nat)) :=
  let (num, ef) := acc in
  let! c := vget num e in
  let! num := vset e (S c) num in
  let! p := vget ef e in
  let! p := match c with 0 => Ok (Some f, snd p) | 1 => Ok (fst p, Some f) | _ => UB end in
  let! ef := vset e p ef in
  Ok (num, ef).

Section FindFaces.
  Variable clockwise : projection -> list point -> bool.
  Variable m : mesh.

  (** Mesh2D.cpp:431-488: a closed walk was found *)
  Definition close_face (k : nat) (edges nodes : list nat) (f : faces) : outcome faces :=
    let! dup := has_duplicates k (map Some nodes) in
    if dup then Ok f
    else
      let! one := one_edge_has_no_face (edges_num_faces f) edges in
      let! reject :=
        if one then Ok false
        else let! ef := read_all (edges_faces f) edges in has_duplicates k (map fst ef) in
      if reject then Ok f
      else
        let! pts := read_all (m_nodes m) nodes in
        if clockwise (m_projection m) pts then Ok f
        else
          let! (num, ef) := fold_out (record_edge (num_faces f)) edges (edges_num_faces f, edges_faces f) in
          Ok (Faces num ef (faces_nodes f ++ [nodes]) (faces_edges f ++ [edges]) (num_faces_nodes f ++ [length nodes])).

  (** The loop of Mesh2D.cpp:491-499: position of [e] among the first [k] entries of the row, from position [i] on; 0 if absent *)
  Fixpoint position_in_row (row : list (option nat)) (e : nat) (k i : nat) : outcome nat :=
    match k with
    | 0 => Ok 0
    | S k => let! x := vget row i in if eq_idx x (Some e) then Ok i else position_in_row row e k (S i)
    end.

  (** Mesh2D.cpp:501-514: the entry before it, cyclically.  [count - 1] of UInt 0 is out of range. *)
  Definition entry_before (row : list (option nat)) (count i : nat) : outcome (option nat) :=
    if i =? 0 then (if count =? 0 then UB else vget row (count - 1))
    else if count <? i then vget row (i - count - 1)
    else vget row (i - 1).

  (** FindFacesRecursive, Mesh2D.cpp:401-515.  Each call adds a node, so [k] calls are enough. *)
  Fixpoint find_rec (fuel k start node : nat) (previous : option nat) (edges nodes : list nat) (f : faces) : outcome faces :=
    if k <=? length nodes then Ok f
    else
      match fuel with
      | 0 => UB
      | S fuel =>
          match previous with
          | None => UB
          | Some p =>
              let! ed := vget (m_edges m) p in
              if edge_has_missing ed then Throw StdErr
              else
                let! c := vget (edges_num_faces f) p in
                if 2 <=? c then Ok f
                else
                  let edges := edges ++ [p] in
                  let nodes := nodes ++ [node] in
                  match other_node ed node with
                  | None => UB
                  | Some other =>
                      if (other =? start) && (length nodes =? k) then close_face k edges nodes f
                      else
                        let! count := vget (m_nodesNumEdges m) other in
                        let! row := vget (m_nodesEdges m) other in
                        let! i := position_in_row row p count 0 in
                        let! next := entry_before row count i in
                        find_rec fuel k start other next edges nodes f
                  end
          end
      end.

  (** FindFaces, Mesh2D.cpp:517-542: the walks started from one node *)
  Definition find_from (k : nat) (f : faces) (n : nat) : outcome faces :=
    let! p := vget (m_nodes m) n in
    if negb (is_valid p) then Ok f
    else
      let! count := vget (m_nodesNumEdges m) n in
      fold_out (fun f e =>
                  let! row := vget (m_nodesEdges m) n in
                  let! x := vget row e in
                  find_rec k k n n x [] [] f) (seq 0 count) f.
  Definition find_size (f : faces) (k : nat) : outcome faces := fold_out (find_from k) (seq 0 (length (m_nodes m))) f.
  Definition find_faces (f : faces) : outcome faces := fold_out find_size (seq 3 (max_edges_per_face - 2)) f.
End FindFaces.

(** DoAdministration, Mesh2D.cpp:153-168, without circumcentres and node types *)
Definition administrate2d order clockwise (m : mesh) : outcome (mesh * faces) :=
  let! m' := administrate order m in
  let! f := find_faces clockwise m' (no_faces m') in
  Ok (m', f).
