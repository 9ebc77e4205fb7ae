(** What the properties of triangulation, hanging edges, regions and export are stated with. *)
From Verif Require Import Base FloatModel MeshModel MeshSpec FaceModel FaceSpec FaceUseModel.

(** The diagonals of a face from its first node: to all nodes except its neighbours. *)
Definition diagonals_of (ns : list nat) : list (nat * nat) :=
  match ns with n :: _ => map (fun o => (n, o)) (firstn (length ns - 3) (skipn 2 ns)) | [] => [] end.
Definition diagonals (f : faces) : list (nat * nat) := flat_map diagonals_of (faces_nodes f).
Definition as_edge (p : nat * nat) : edge := (Some (fst p), Some (snd p)).

(** An edge with two ends, one of which joins no other edge. *)
Definition hanging (m : mesh) (e : nat) : Prop :=
  e < length (m_edges m) /\ exists n o, joins (edge_at m e) n o /\ forall e' o', e' < length (m_edges m) -> joins (edge_at m e') n o' -> e' = e.

(** Faces [a] and [b] share an edge. *)
Definition share_edge (f : faces) (a b : nat) : Prop :=
  exists ea eb e, nth_error (faces_edges f) a = Some ea /\ nth_error (faces_edges f) b = Some eb /\ In e ea /\ In e eb.
(** A chain of faces, neighbours sharing an edge. *)
Inductive linked (f : faces) : nat -> nat -> Prop :=
| linked_refl a : linked f a a
| linked_step a b c : linked f a b -> share_edge f b c -> linked f a c.

(** The closed polygons of the chosen faces, with separators between them. *)
Definition polygon_of (m : mesh) (ns : list nat) : list point :=
  map (fun n => nth n (m_nodes m) missing_point) (ns ++ firstn 1 ns).
Fixpoint separated (l : list (list point)) : list point :=
  match l with [] => [] | [p] => p | p :: t => p ++ missing_point :: separated t end.
Fixpoint chosen {A} (mask : list bool) (l : list A) : list A :=
  match mask, l with b :: mask, a :: l => if b then a :: chosen mask l else chosen mask l | _, _ => [] end.

(** Number of faces with a label. *)
Definition region_size (labels : list (option nat)) (r : nat) : nat :=
  length (filter (fun l => match l with Some x => r =? x | None => false end) labels).

(** A buffer of which the first entries have been overwritten. *)
Definition written {A} (buffer out : list A) : list A := out ++ skipn (length out) buffer.

(** Pairs of indices as consecutive integers, -1 for a missing one. *)
Definition pair_ints (l : list (option nat * option nat)) : list Z :=
  flat_map (fun p => [match fst p with Some i => Z.of_nat i | None => (-1)%Z end; match snd p with Some i => Z.of_nat i | None => (-1)%Z end]) l.
Definition total (l : list (list nat)) : nat := length (concat l).

(** Buffers with at least the reported numbers of entries. *)
Definition fits (a : api_mesh) (d : api_data) : Prop :=
  a_num_nodes a <= length (d_nodes d) /\ 2 * a_num_edges a <= length (d_edge_nodes d) /\ 2 * a_num_edges a <= length (d_edge_faces d) /\
  a_num_faces a <= length (d_nodes_per_face d) /\ a_num_face_nodes a <= length (d_face_nodes d) /\ a_num_face_nodes a <= length (d_face_edges d).

(** Faces of the mesh with equally many nodes and edges, at least three, all existing. *)
Definition usable (m : mesh) (f : faces) : Prop :=
  tables_agree m f /\
  forall i ns es, nth_error (faces_nodes f) i = Some ns -> nth_error (faces_edges f) i = Some es ->
    3 <= length ns /\ length es = length ns /\ (forall n, In n ns -> n < length (m_nodes m)) /\ (forall e, In e es -> e < length (m_edges m)).
