(** What the properties of faces are stated with. *)
From Verif Require Import Base FloatModel MeshModel MeshSpec FaceModel.

(** Item [i] of a cycle. *)
Definition cyclic {A} (l : list A) (i : nat) : option A := nth_error l (i mod length l).

(** Edge number i joins node number i and the next one, cyclically. *)
Definition cycle_of_edges (m : mesh) (nodes edges : list nat) : Prop :=
  length edges = length nodes /\
  forall i a b e, cyclic nodes i = Some a -> cyclic nodes (S i) = Some b -> cyclic edges i = Some e ->
    e < length (m_edges m) /\ joins (edge_at m e) a b.

(** A face: three to six different nodes, different edges joining neighbours, not in clockwise order. *)
Definition face_ok clockwise (m : mesh) (nodes edges : list nat) : Prop :=
  3 <= length nodes <= 6 /\ NoDup nodes /\ NoDup edges /\ cycle_of_edges m nodes edges /\
  clockwise (m_projection m) (map (fun n => nth n (m_nodes m) missing_point) nodes) = false /\
  forall n, In n nodes -> valid_at (m_nodes m) n = true.

(** The faces that list edge [e], in increasing order. *)
Definition faces_with (f : faces) (e : nat) : list nat :=
  filter (fun i => existsb (Nat.eqb e) (nth i (faces_edges f) [])) (seq 0 (num_faces f)).

(** The tables agree: every edge records exactly the faces that list it, at most two. *)
Definition tables_agree (m : mesh) (f : faces) : Prop :=
  length (faces_edges f) = num_faces f /\ num_faces_nodes f = map (@length nat) (faces_nodes f) /\
  length (edges_num_faces f) = length (m_edges m) /\ length (edges_faces f) = length (m_edges m) /\
  forall e, e < length (m_edges m) ->
    length (faces_with f e) <= 2 /\
    nth_error (edges_num_faces f) e = Some (length (faces_with f e)) /\
    nth_error (edges_faces f) e = Some (nth_error (faces_with f e) 0, nth_error (faces_with f e) 1).

(** Edge [e'] comes before [e], cyclically, in the list of the edges at node [n]. *)
Definition turn (m : mesh) (n e e' : nat) : Prop :=
  exists i, nth_error (row_of m n) i = Some (Some e) /\
    nth_error (row_of m n) (if i =? 0 then degree_of m n - 1 else i - 1) = Some (Some e').

(** A walk over edges that takes the same turn at each node and returns to its start. *)
Definition turning_walk (m : mesh) (nodes edges : list nat) : Prop :=
  cycle_of_edges m nodes edges /\
  (forall n e, nth_error nodes 0 = Some n -> nth_error edges 0 = Some e -> In (Some e) (row_of m n)) /\
  forall i n e e', nth_error nodes (S i) = Some n -> nth_error edges i = Some e -> nth_error edges (S i) = Some e' -> turn m n e e'.

(** The edges of a walk are already used: one of them has two faces, or each has one and two of them have the same. *)
Definition used_up (f : faces) (edges : list nat) : Prop :=
  (exists e, In e edges /\ length (faces_with f e) = 2) \/
  ((forall e, In e edges -> length (faces_with f e) = 1) /\
   exists e e', In e edges /\ In e' edges /\ e <> e' /\ faces_with f e = faces_with f e').
