(** What the properties of the conversion of a mesh to a curvilinear grid are stated with. *)
From Verif Require Import Base FloatModel MeshModel MeshSpec FaceModel FaceSpec.

(** Every face is a cycle of different nodes and different edges. *)
Definition proper_cells (m : mesh) (f : faces) : Prop :=
  forall i ns es, nth_error (faces_nodes f) i = Some ns -> nth_error (faces_edges f) i = Some es -> NoDup ns /\ NoDup es /\ cycle_of_edges m ns es.
Definition quad_nodes (f : faces) (c : nat) (ns : list nat) : Prop := nth_error (faces_nodes f) c = Some ns /\ length ns = 4.
(** Every edge between two nodes has a face. *)
Definition no_bare_edges (m : mesh) (f : faces) : Prop := forall e a b, e < length (m_edges m) -> joins (edge_at m e) a b -> faces_with f e <> [].
(** Two nodes never have three neighbours in common. *)
Definition few_common (m : mesh) : Prop :=
  forall a b x y z, a <> b -> x <> y -> y <> z -> x <> z ->
    neighbour m a x -> neighbour m a y -> neighbour m a z -> neighbour m b x -> neighbour m b y -> neighbour m b z -> False.

(** Positions next to each other, (column, row). *)
Definition beside (p q : Z * Z) : Prop := (Z.abs (fst p - fst q) + Z.abs (snd p - snd q) = 1)%Z.
(** The nodes of a cell lie at the corners of a cell of the grid, going round. *)
Definition unit_cell (pos : nat -> option (Z * Z)) (ns : list nat) : Prop :=
  exists a b c d p q r s, ns = [a; b; c; d] /\ pos a = Some p /\ pos b = Some q /\ pos c = Some r /\ pos d = Some s /\
    beside p q /\ beside q r /\ beside r s /\ beside s p /\ p <> r /\ q <> s.

Definition entry {A} (rows : list (list A)) (k l : nat) : option A := match nth_error rows k with Some row => nth_error row l | None => None end.
(** The smallest matrix holding all nodes with a position; the other entries are missing. *)
Definition matrix_of (m : mesh) (pos : nat -> option (Z * Z)) (rows : list (list point)) : Prop :=
  exists i0 j0 width, (forall row, In row rows -> length row = width) /\
    (forall n i j, pos n = Some (i, j) -> i0 <= i < i0 + Z.of_nat width /\ j0 <= j < j0 + Z.of_nat (length rows))%Z /\
    (exists n j, pos n = Some (i0, j)) /\ (exists n j, pos n = Some (i0 + Z.of_nat width - 1, j)%Z) /\
    (exists n i, pos n = Some (i, j0)) /\ (exists n i, pos n = Some (i, j0 + Z.of_nat (length rows) - 1)%Z) /\
    forall k l, k < length rows -> l < width ->
      (exists n p, pos n = Some (i0 + Z.of_nat l, j0 + Z.of_nat k)%Z /\ nth_error (m_nodes m) n = Some p /\ entry rows k l = Some p) \/
      ((forall n, pos n <> Some (i0 + Z.of_nat l, j0 + Z.of_nat k)%Z) /\ entry rows k l = Some missing_point).

(** The nodes of the collected cells, and no others, have a position; the cells are laid out as cells of the grid. *)
Record laid_out (m : mesh) (f : faces) (start : nat) (pos : nat -> option (Z * Z)) (cells : list nat) (rows : list (list point)) : Prop := {
  lo_start : In start cells;
  lo_cells : forall c, In c cells -> exists ns, quad_nodes f c ns /\ unit_cell pos ns;
  lo_nodes : forall n p, pos n = Some p -> exists c ns, In c cells /\ quad_nodes f c ns /\ In n ns;
  lo_rows : matrix_of m pos rows }.

(** Nodes [a] and [b] are the ends of an edge of a quadrilateral. *)
Definition cell_joins (m : mesh) (f : faces) (a b : nat) : Prop :=
  exists e c ns, joins (edge_at m e) a b /\ In c (faces_with f e) /\ quad_nodes f c ns.
(** The quadrilaterals are cells of a grid: nodes have different positions, every quadrilateral is a cell, nodes at neighbouring positions are joined. *)
Record gridded (m : mesh) (f : faces) (pos : nat -> option (Z * Z)) : Prop := {
  gr_once : forall a b p, pos a = Some p -> pos b = Some p -> a = b;
  gr_cell : forall c ns, quad_nodes f c ns -> unit_cell pos ns;
  gr_join : forall a b p q, pos a = Some p -> pos b = Some q -> beside p q -> cell_joins m f a b }.
(** Different faces have different sets of edges. *)
Definition cells_once (f : faces) : Prop :=
  forall i j es es', nth_error (faces_edges f) i = Some es -> nth_error (faces_edges f) j = Some es' -> (forall e, In e es <-> In e es') -> i = j.
(** The quadrilaterals that are reached from a cell by going from cell to cell over shared edges. *)
Inductive reached (f : faces) (start : nat) : nat -> Prop :=
| reached_start : reached f start start
| reached_over a b e ns : reached f start a -> In a (faces_with f e) -> In b (faces_with f e) -> quad_nodes f b ns -> reached f start b.
