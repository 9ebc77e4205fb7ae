(** What the properties of rows of cells are stated with. *)
From Verif Require Import Base FloatModel MeshModel MeshSpec FaceModel FaceSpec FaceUseSpec.

(** Face [i] has four edges; [a] and [b] are opposite edges of it. *)
Definition four_edges (f : faces) (i : nat) : Prop := exists es, nth_error (faces_edges f) i = Some es /\ length es = 4.
Definition opposite_in (f : faces) (i a b : nat) : Prop :=
  exists es k, nth_error (faces_edges f) i = Some es /\ length es = 4 /\ nth_error es k = Some a /\ nth_error es ((k + 2) mod 4) = Some b.

(** The row of edge [e]: all edges reached from it by going to opposite edges of quadrilaterals. *)
Inductive same_row (f : faces) (e : nat) : nat -> Prop :=
| row_here : same_row f e e
| row_next a b i : same_row f e a -> opposite_in f i a b -> same_row f e b.

(** Faces and the edges between them: face number t has edges number t and t + 1 as opposite edges, and the next face is on the other side. *)
Definition strip (f : faces) (edges elements : list nat) : Prop :=
  length edges = S (length elements) /\
  (forall t, t < length elements -> opposite_in f (nth t elements 0) (nth t edges 0) (nth (S t) edges 0)) /\
  (forall t, S t < length elements -> nth t elements 0 <> nth (S t) elements 0 /\ In (nth (S t) elements 0) (faces_with f (nth (S t) edges 0))).

(** The strip ends at edge [e] of face [i]: on the other side there is no quadrilateral. *)
Definition ends_at (f : faces) (e i : nat) : Prop := forall j, In j (faces_with f e) -> j <> i -> ~ four_edges f j.

(** Up-to-date faces without repeated edges. *)
Definition distinct_edges (f : faces) : Prop := forall es, In es (faces_edges f) -> NoDup es.

(** The row of [e] meets the face [i] in [e] and the edge opposite to it only. *)
Definition passes_once (f : faces) (e i : nat) : Prop :=
  forall es b, nth_error (faces_edges f) i = Some es -> length es = 4 -> In b es -> same_row f e b -> b = e \/ opposite_in f i e b.

(** *** The result of splitting *)
(** An edge with quadrilaterals only at its sides is cut in two. *)
Definition cut_at (f : faces) (c : nat) : Prop := forall i, In i (faces_with f c) -> four_edges f i.
(** Every edge of a face joins two nodes. *)
Definition two_ends (m : mesh) (f : faces) : Prop := forall es c, In es (faces_edges f) -> In c es -> exists a b, edge_at m c = (Some a, Some b).

Definition midpoint (m : mesh) (c : nat) : point :=
  match edge_at m c with
  | (Some a, Some b) =>
      let p := nth a (m_nodes m) missing_point in
      let q := nth b (m_nodes m) missing_point in
      Pt (fmul (double_of 1 (-1)) (fadd (px p) (px q))) (fmul (double_of 1 (-1)) (fadd (py p) (py q)))
  | _ => missing_point
  end.
Fixpoint place (c : nat) (l : list nat) : option nat :=
  match l with [] => None | x :: t => if c =? x then Some 0 else match place c t with Some k => Some (S k) | None => None end end.
(** The new node in the middle of edge [c] when the edges [cuts] are cut. *)
Definition mid (m : mesh) (cuts : list nat) (c : nat) : option nat :=
  match place c cuts with Some k => Some (length (m_nodes m) + k) | None => None end.
(** The two edges from a node to the ends of edge [c]. *)
Definition to_ends (m : mesh) (c n : nat) : list (nat * nat) :=
  match edge_at m c with (Some a, Some b) => [(a, n); (n, b)] | _ => [] end.
Definition halves (m : mesh) (cuts : list nat) (c : nat) : list (nat * nat) :=
  match mid m cuts c with Some n => to_ends m c n | None => [] end.
(** The new edges inside a cell with the opposite edges [c] and [o]: from middle to middle, or from the middle to the ends of an edge that is not cut. *)
Definition inside (m : mesh) (cuts : list nat) (c o : nat) : list (nat * nat) :=
  match mid m cuts c, mid m cuts o with
  | Some x, Some y => [(x, y)]
  | Some x, None => to_ends m o x
  | None, Some y => to_ends m c y
  | None, None => []
  end.
Definition new_edges (m : mesh) (cuts edges elements : list nat) : list (nat * nat) :=
  flat_map (halves m cuts) cuts ++ flat_map (fun t => inside m cuts (nth t edges 0) (nth (S t) edges 0)) (seq 0 (length elements)).
(** What splitting leaves: the middles are added, the edges that are cut removed, the new edges appended. *)
Definition split_result (m : mesh) (cuts : list nat) (new : list (nat * nat)) (m1 : mesh) : Prop :=
  m_nodes m1 = m_nodes m ++ map (midpoint m) cuts /\ m_projection m1 = m_projection m /\
  length (m_edges m1) = length (m_edges m) + length new /\
  (forall c, c < length (m_edges m) -> In c cuts -> edge_at m1 c = missing_edge) /\
  (forall c, c < length (m_edges m) -> ~ In c cuts -> edge_at m1 c = edge_at m c) /\
  (forall k p, nth_error new k = Some p -> edge_at m1 (length (m_edges m) + k) = as_edge p).

(** A start where collecting finds the whole row. *)
Definition regular_start (f : faces) (e : nat) : Prop :=
  faces_with f e <> [] /\ (forall i, nth_error (faces_with f e) 0 = Some i -> passes_once f e i) /\ (forall j, nth_error (faces_with f e) 1 = Some j -> four_edges f j).
