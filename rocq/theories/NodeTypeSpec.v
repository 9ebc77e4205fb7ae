(** What the properties of the node types are stated with. *)
From Verif Require Import Base FloatModel MeshModel MeshSpec FaceModel FaceSpec FlipSpec.

(** Edges of exactly one face, edges between two nodes, edges of no face. *)
Definition on_boundary (f : faces) (e : nat) : Prop := exists i, forall j, lists f j e <-> j = i.
Definition joining (m : mesh) (e : nat) : Prop := exists a b, edge_at m e = (Some a, Some b).
Definition unused (m : mesh) (f : faces) (e : nat) : Prop := e < length (m_edges m) /\ joining m e /\ forall i, ~ lists f i e.
(** [bs] are the boundary edges at node [n]. *)
Definition boundary_edges (m : mesh) (f : faces) (n : nat) (bs : list nat) : Prop :=
  NoDup bs /\ forall e, In e bs <-> e < length (m_edges m) /\ ends_in (edge_at m e) n /\ on_boundary f e.
(** The type of a node with [b] boundary edges and [d] edges: hanging, internal, on the boundary, corner. *)
Definition type_of (b d : nat) : Z :=
  if d <? 2 then (-1)%Z else if b =? 0 then 1%Z else if (b <=? 2) && negb (d =? 2) then 2%Z else 3%Z.
