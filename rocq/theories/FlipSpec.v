(** What the properties of the flipping of edges are stated with. *)
From Coq Require Import Permutation.
From Verif Require Import Base FloatModel MeshModel MeshSpec FaceModel FaceSpec.

(** Face [i] has edge [e]. *)
Definition lists (f : faces) (i e : nat) : Prop := exists es, nth_error (faces_edges f) i = Some es /\ In e es.
Definition known (o : option nat) : nat := match o with Some _ => 1 | None => 0 end.

(** All tables describe the same mesh: every face is a cycle of edges, every edge records exactly the faces that have it, in some order, and the edges of every
    face are listed at both their ends. *)
Record in_step (m : mesh) (f : faces) : Prop := {
  st_mesh : consistent m;
  st_tables : length (faces_edges f) = num_faces f /\ num_faces_nodes f = map (@length nat) (faces_nodes f) /\
    length (edges_num_faces f) = length (m_edges m) /\ length (edges_faces f) = length (m_edges m);
  st_face : forall i ns es, nth_error (faces_nodes f) i = Some ns -> nth_error (faces_edges f) i = Some es ->
    3 <= length ns /\ NoDup ns /\ cycle_of_edges m ns es /\ forall n, In n ns -> valid_at (m_nodes m) n = true;
  st_edge : forall e, e < length (m_edges m) -> exists p q, nth_error (edges_faces f) e = Some (p, q) /\
    (forall i, lists f i e <-> p = Some i \/ q = Some i) /\ (p = q -> p = None) /\ (p = None -> q = None) /\
    nth_error (edges_num_faces f) e = Some (known p + known q);
  st_row : forall n, n < length (m_nodes m) -> degree_of m n = length (row_of m n) /\ NoDup (row_of m n) /\
    forall oe, In oe (row_of m n) -> exists e o, oe = Some e /\ e < length (m_edges m) /\ joins (edge_at m e) n o /\ In (Some e) (row_of m o);
  st_listed : forall i e n, lists f i e -> ends_in (edge_at m e) n -> In (Some e) (row_of m n) }.

(** Edge [e] from [a] to [b] lies between triangle [lf] with third node [l] and triangle [rf] with third node [r]. *)
Definition between (m : mesh) (f : faces) (e a b l r lf rf : nat) : Prop :=
  e < length (m_edges m) /\ edge_at m e = (Some a, Some b) /\ nth_error (edges_faces f) e = Some (Some lf, Some rf) /\
  (exists ns, nth_error (faces_nodes f) lf = Some ns /\ Permutation ns [a; b; l]) /\
  (exists ns, nth_error (faces_nodes f) rf = Some ns /\ Permutation ns [a; b; r]).

(** The edge is turned: it joins [l] and [r], and the two triangles are the ones of [a] and of [b]. *)
Definition turned (m : mesh) (f : faces) (e a b l r lf rf : nat) (m' : mesh) (f' : faces) : Prop :=
  (m_nodes m' = m_nodes m /\ m_projection m' = m_projection m /\ length (m_edges m') = length (m_edges m)) /\
  edge_at m' e = (Some l, Some r) /\ (forall e', e' <> e -> edge_at m' e' = edge_at m e') /\
  num_faces f' = num_faces f /\
  (forall i, i <> lf -> i <> rf -> nth_error (faces_nodes f') i = nth_error (faces_nodes f) i /\ nth_error (faces_edges f') i = nth_error (faces_edges f) i) /\
  (exists ns, nth_error (faces_nodes f') lf = Some ns /\ Permutation ns [l; r; a]) /\
  (exists ns, nth_error (faces_nodes f') rf = Some ns /\ Permutation ns [l; r; b]) /\
  lists f' lf e /\ lists f' rf e /\
  (forall n, degree_of m' n + (if (n =? a) || (n =? b) then 1 else 0) = degree_of m n + (if (n =? l) || (n =? r) then 1 else 0)).

(** Numbers of edges wanted at an inner node, a node on the boundary and a corner. *)
Definition ideal (t : nat) : Z := match t with 2 => 4 | 3 => 3 | _ => 6 end.
(** Squared difference between the number of edges of a node, changed by [shift], and the number wanted. *)
Definition away (types : list nat) (m : mesh) (n : nat) (shift : Z) : Z :=
  let d := (Z.of_nat (degree_of m n) + shift - ideal (nth n types 0%nat))%Z in (d * d)%Z.
Definition sum_of (l : list Z) : Z := fold_right Z.add 0%Z l.
Definition quality (types : list nat) (m : mesh) : Z := sum_of (map (fun n => away types m n 0) (seq 0 (length (m_nodes m)))).
Definition better (types : list nat) (m : mesh) (a b l r : nat) : Prop :=
  (away types m a (-1) + away types m b (-1) + away types m l 1 + away types m r 1 <
   away types m a 0 + away types m b 0 + away types m l 0 + away types m r 0)%Z.

Section Flips.
  Variable types : list nat.
  Variable cross : point -> point -> point -> point -> bool.
  Variable land : mesh -> nat -> nat -> nat -> option Z.

  (** The edge is to be turned: the result is better, and the diagonals cross. *)
  Definition crossing_at (m : mesh) (a b l r : nat) : Prop :=
    cross (nth a (m_nodes m) missing_point) (nth b (m_nodes m) missing_point) (nth l (m_nodes m) missing_point) (nth r (m_nodes m) missing_point) = true.
  Definition wanted (m : mesh) (e a b l r : nat) : Prop :=
    crossing_at m a b l r /\ match land m e l r with Some v => (v < 0)%Z | None => better types m a b l r end.
  Definition improvable (m : mesh) (f : faces) (e : nat) : Prop := exists a b l r lf rf, between m f e a b l r lf rf /\ wanted m e a b l r.

  (** [k] edges turned one after the other, each time one to be turned. *)
  Inductive flips (m : mesh) (f : faces) : nat -> mesh -> faces -> Prop :=
  | flips_none : flips m f 0 m f
  | flips_more k m1 f1 e a b l r lf rf m2 f2 : flips m f k m1 f1 -> between m1 f1 e a b l r lf rf -> l <> r -> wanted m1 e a b l r ->
      turned m1 f1 e a b l r lf rf m2 f2 -> in_step m2 f2 -> flips m f (S k) m2 f2.
End Flips.

(** Edge [e] lies between two faces that are not both triangles. *)
Definition beside_other (f : faces) (e : nat) : Prop :=
  exists i j ni nj, nth_error (edges_faces f) e = Some (Some i, Some j) /\ nth_error (faces_nodes f) i = Some ni /\ nth_error (faces_nodes f) j = Some nj /\
    ~ (length ni = 3 /\ length nj = 3).
