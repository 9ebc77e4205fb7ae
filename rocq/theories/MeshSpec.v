(** Plain vocabulary about nodes and edges used to state the mesh properties.  Independent of the code in MeshModel: it only uses its
    data types and [is_valid]. *)
From Verif Require Import Base FloatModel MeshModel.

(** Node [n] exists and is not missing. *)
Definition valid_at (nodes : list point) (n : nat) : bool :=
  match nth_error nodes n with Some p => is_valid p | None => false end.

(** Edge [e] has two ends and both are valid nodes. *)
Definition live (nodes : list point) (e : edge) : bool :=
  match e with (Some a, Some b) => valid_at nodes a && valid_at nodes b | _ => false end.

(** [n] is an end of [e]. *)
Definition ends_in (e : edge) (n : nat) : Prop := fst e = Some n \/ snd e = Some n.

(** Every end of every edge that is not missing is the index of a node. *)
Definition well_indexed (nodes : list point) (edges : list edge) : Prop :=
  forall e n, In e edges -> ends_in e n -> n < length nodes.

(** Some edge with two valid ends ends in [n]. *)
Definition connected (nodes : list point) (edges : list edge) (n : nat) : Prop :=
  exists e, In e edges /\ live nodes e = true /\ ends_in e n.

(** The result of renumbering: [kept] lists the old indices of the nodes that are kept. *)
Definition same_edge (kept : list nat) (old new : edge) : Prop :=
  exists a b a' b', old = (Some a, Some b) /\ new = (Some a', Some b') /\
    nth_error kept a' = Some a /\ nth_error kept b' = Some b.

(** Increasing list of the numbers satisfying [P]. *)
Definition enumerates (P : nat -> Prop) (l : list nat) : Prop :=
  (forall n, In n l <-> P n) /\ (forall i j a b, i < j -> nth_error l i = Some a -> nth_error l j = Some b -> a < b).

(** The edges listed at node [n] in the adjacency table. *)
Definition row_of (m : mesh) (n : nat) : list (option nat) := nth n (m_nodesEdges m) [].
Definition degree_of (m : mesh) (n : nat) : nat := nth n (m_nodesNumEdges m) 0.
Definition edge_at (m : mesh) (e : nat) : edge := nth e (m_edges m) missing_edge.

(** [e] joins [n] and [o]. *)
Definition joins (e : edge) (n o : nat) : Prop := e = (Some n, Some o) \/ e = (Some o, Some n).

(** The adjacency tables list real incident edges, one per neighbour, at both ends of the edge, and miss an incident edge only if the neighbour is reached by
    another listed edge or a node is full. *)
Record adjacency_exact (m : mesh) : Prop := {
  adj_rows : length (m_nodesEdges m) = length (m_nodes m);
  adj_counts : length (m_nodesNumEdges m) = length (m_nodes m);
  adj_count : forall n, n < length (m_nodes m) -> degree_of m n = length (row_of m n) /\ degree_of m n <= max_edges_per_node;
  adj_sound : forall n oe, n < length (m_nodes m) -> In oe (row_of m n) ->
    exists e o, oe = Some e /\ e < length (m_edges m) /\ joins (edge_at m e) n o;
  adj_nodup : forall n, n < length (m_nodes m) -> NoDup (row_of m n);
  adj_one : forall n ei ej o, n < length (m_nodes m) ->
    In (Some ei) (row_of m n) -> In (Some ej) (row_of m n) ->
    joins (edge_at m ei) n o -> joins (edge_at m ej) n o -> ei = ej;
  adj_symmetric : forall n e o, n < length (m_nodes m) -> In (Some e) (row_of m n) -> joins (edge_at m e) n o ->
    In (Some e) (row_of m o);
  adj_complete : forall e n o, e < length (m_edges m) -> joins (edge_at m e) n o ->
    In (Some e) (row_of m n) \/
    (exists e', In (Some e') (row_of m n) /\ ends_in (edge_at m e') o) \/
    degree_of m n = max_edges_per_node \/ degree_of m o = max_edges_per_node }.

(** No two edges join the same two nodes, no edge joins a node to itself. *)
Definition simple_edges (edges : list edge) : Prop :=
  (forall e n, In e edges -> ~ joins e n n) /\
  (forall i j ei ej n o, nth_error edges i = Some ei -> nth_error edges j = Some ej -> joins ei n o -> joins ej n o -> i = j).

(** The well-formed part of given nodes and edges: the connected nodes in order, and the edges with two valid ends in order, each
    joining the same nodes as before.  [kept] lists the old indices of the nodes that stay. *)
Definition well_formed_part (nodes : list point) (edges : list edge) (nodes' : list point) (edges' : list edge) : Prop :=
  exists kept, enumerates (connected nodes edges) kept /\
    Forall2 (fun i p => nth_error nodes i = Some p) kept nodes' /\
    Forall2 (same_edge kept) (filter (live nodes) edges) edges'.

(** *** Undo *)

(** [t] has the nodes, edges and projection of [s], possibly followed by missing nodes and missing edges. *)
Definition extends (s t : mesh) : Prop :=
  exists a b, m_nodes t = m_nodes s ++ repeat missing_point a /\ m_edges t = m_edges s ++ repeat missing_edge b /\
    m_projection t = m_projection s.

(** Every index stored in the mesh is in range. *)
Record consistent (m : mesh) : Prop := {
  co_ends : well_indexed (m_nodes m) (m_edges m);
  co_counts : length (m_nodesNumEdges m) = length (m_nodes m);
  co_rows : length (m_nodesEdges m) = length (m_nodes m);
  co_fill : forall n, n < length (m_nodes m) -> degree_of m n <= length (row_of m n);
  co_listed : forall n oe, In oe (row_of m n) -> exists e, oe = Some e /\ e < length (m_edges m) }.

Definition mesh_le (s t : mesh) : Prop := extends s t /\ (consistent s -> consistent t).

(** Nothing is left for administration to remove: every node is missing or connected, every edge is missing or live. *)
Definition administrated (m : mesh) : Prop :=
  (forall n p, nth_error (m_nodes m) n = Some p -> p = missing_point \/ connected (m_nodes m) (m_edges m) n) /\
  (forall e, In e (m_edges m) -> e = missing_edge \/ live (m_nodes m) e = true).

(** What a caller must respect for an edit to be defined and undoable. *)
Definition medit_pre (c : medit) (m : mesh) : Prop :=
  match c with
  | EConnect (Some a) (Some b) => a < length (m_nodes m) /\ b < length (m_nodes m)
  | EResetEdge e ed => e < length (m_edges m) /\ forall n, ends_in ed n -> n < length (m_nodes m)
  | EDeleteEdge (Some e) => e < length (m_edges m)
  | EMerge (Some a) (Some b) => degree_of m a + degree_of m b <= max_edges_per_node
  | EJoin rhs => administrated m /\ m_nodes m <> [] /\ m_edges m <> [] /\ well_indexed (m_nodes rhs) (m_edges rhs)
  | EConvert _ _ conv => administrated m /\ forall p, is_valid p = true -> is_valid (conv p) = true
  | _ => True
  end.

(** Every incident edge of every node is listed, and nothing else. *)
Definition lists_all (m : mesh) : Prop :=
  forall n, n < length (m_nodes m) ->
    degree_of m n = length (row_of m n) /\ NoDup (row_of m n) /\
    forall oe, In oe (row_of m n) <-> exists e o, oe = Some e /\ e < length (m_edges m) /\ joins (edge_at m e) n o.

(** Node [o] is joined to [n] by some edge. *)
Definition neighbour (m : mesh) (n o : nat) : Prop := exists e, e < length (m_edges m) /\ joins (edge_at m e) n o.

(** Result of merging [a] into [b], edge by edge. *)
Definition merged_edges (m : mesh) (a b : nat) (m' : mesh) : Prop :=
  length (m_edges m') = length (m_edges m) /\
  forall e, e < length (m_edges m) ->
    (joins (edge_at m e) a b -> edge_at m' e = missing_edge) /\
    (forall o, o <> a -> joins (edge_at m e) o b -> neighbour m a o -> edge_at m' e = missing_edge) /\
    (forall o, o <> a -> joins (edge_at m e) o b -> ~ neighbour m a o -> edge_at m' e = edge_at m e) /\
    (forall o, o <> b -> edge_at m e = (Some a, Some o) -> edge_at m' e = (Some b, Some o)) /\
    (forall o, o <> b -> edge_at m e = (Some o, Some a) -> edge_at m' e = (Some o, Some b)) /\
    (~ ends_in (edge_at m e) a -> ~ ends_in (edge_at m e) b -> edge_at m' e = edge_at m e).
