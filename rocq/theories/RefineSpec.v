(** What the properties of the refinement of a mesh are stated with. *)
From Verif Require Import Base FloatModel MeshModel MeshSpec FaceModel FaceSpec FlipSpec.

(** Value of a mask; marked: not zero. *)
Definition value (mask : list Z) (i : nat) : Z := nth i mask 0%Z.
Definition marked (mask : list Z) (i : nat) : bool := negb (value mask i =? 0)%Z.
Definition marked_edges (em : list Z) : list nat := filter (marked em) (seq 0 (length em)).

(** No face has more than six nodes. *)
Definition at_most_six (f : faces) : Prop := forall ns, In ns (faces_nodes f) -> length ns <= 6.
Definition nodes_of (f : faces) (i : nat) : list nat := nth i (faces_nodes f) [].
Definition edges_of (f : faces) (i : nat) : list nat := nth i (faces_edges f) [].

(** Item [j] of a cycle, counted modulo its length. *)
Definition item (l : list nat) (j : nat) : nat := nth (j mod length l) l 0.
(** The brother of edge number [j] of a face is the next edge, the previous edge, or neither. *)
Definition brother (br : list (option nat)) (e : nat) : option nat := nth e br None.
Definition with_next (br : list (option nat)) (es : list nat) (j : nat) : bool := eq_idx (brother br (item es j)) (Some (item es (j + 1))).
Definition with_previous (br : list (option nat)) (es : list nat) (j : nat) : bool := eq_idx (brother br (item es j)) (Some (item es (j + length es - 1))).
Definition on_its_own (br : list (option nat)) (es : list nat) (j : nat) : bool := negb (with_previous br es j) && negb (with_next br es j).

(** *** One step: every marked edge gets a node in its middle, every marked face gets edges inside *)

(** The node in the middle of a marked edge: they are numbered in the order of the edges, behind the nodes of the mesh. *)
Definition mid (m : mesh) (em : list Z) (e : nat) : nat := length (m_nodes m) + length (filter (marked em) (seq 0 e)).
Definition half_of (x : spec_float) : spec_float := fmul x (double_of 1 (-1)).
Definition middle_point (m : mesh) (e : nat) : point :=
  match edge_at m e with
  | (Some a, Some b) =>
      let p := nth a (m_nodes m) missing_point in
      let q := nth b (m_nodes m) missing_point in
      Pt (half_of (fadd (px p) (px q))) (half_of (fadd (py p) (py q)))
  | _ => missing_point
  end.

(** The points on the sides of a face, in order: the hanging nodes and the new nodes in the middle of marked edges. *)
Definition side_nodes (m : mesh) (br : list (option nat)) (em : list Z) (ns es : list nat) : list nat :=
  flat_map (fun j =>
    if with_next br es j then [item ns (j + 1)]
    else if negb (with_previous br es j) && marked em (item es j) then [mid m em (item es j)]
    else []) (seq 0 (length es)).
(** The edges inside a face with [k] edges: from the points on the sides to a new node [c], or between two points, or around in a triangle. *)
Definition inside (k c : nat) (q : list nat) : list (nat * nat) :=
  if k <? 4 then map (fun j => (item q j, item q (j + 1))) (seq 0 (length q))
  else if 2 <? length q then map (fun x => (x, c)) q
  else if length q =? 2 then [(item q 0, item q 1)] else [].
Definition has_centre (k : nat) (q : list nat) : bool := (4 <=? k) && (2 <? length q).

(** The faces that get a node in their centre, and its number. *)
Definition gets_centre (m : mesh) (f : faces) (br : list (option nat)) (fm em : list Z) (i : nat) : bool :=
  marked fm i && has_centre (length (nodes_of f i)) (side_nodes m br em (nodes_of f i) (edges_of f i)).
Definition centre_node (m : mesh) (f : faces) (br : list (option nat)) (fm em : list Z) (i : nat) : nat :=
  length (m_nodes m) + length (marked_edges em) + length (filter (gets_centre m f br fm em) (seq 0 i)).
Definition centre_faces (m : mesh) (f : faces) (br : list (option nat)) (fm em : list Z) : list nat :=
  filter (gets_centre m f br fm em) (seq 0 (num_faces f)).
Definition inner_pairs (m : mesh) (f : faces) (br : list (option nat)) (fm em : list Z) : list (nat * nat) :=
  flat_map (fun i => if marked fm i then inside (length (nodes_of f i)) (centre_node m f br fm em i) (side_nodes m br em (nodes_of f i) (edges_of f i)) else [])
    (seq 0 (num_faces f)).

(** [l'] is [l] without some of the items that satisfy [P]. *)
Inductive thinned {A} (P : A -> Prop) : list A -> list A -> Prop :=
| thin_nil : thinned P [] []
| thin_keep a l l' : thinned P l l' -> thinned P (a :: l) (a :: l')
| thin_drop a l l' : P a -> thinned P l l' -> thinned P (a :: l) l'.

Definition pair_edge (p : nat * nat) : edge := (Some (fst p), Some (snd p)).
Definition first_half (m : mesh) (em : list Z) (e : nat) : edge := if marked em e then (fst (edge_at m e), Some (mid m em e)) else edge_at m e.
Definition second_half (m : mesh) (em : list Z) (e : nat) : edge := (Some (mid m em e), snd (edge_at m e)).

(** The mask of a new node: in the middle of an edge, and in the centre of a face. *)
Definition middle_mask (m : mesh) (nm : list Z) (e : nat) : Z :=
  match edge_at m e with
  | (Some a, Some b) => if ((value nm a =? 0) && (value nm b =? 0))%Z then 0%Z else if ((value nm a =? 1) && (value nm b =? 1))%Z then 1%Z else (-1)%Z
  | _ => 0%Z
  end.
Definition centre_mask (f : faces) (nm : list Z) (i : nat) : Z := if forallb (fun n => (value nm n =? 1)%Z) (nodes_of f i) then 1%Z else (-1)%Z.

(** The mesh and the node mask after one step. *)
Definition refined (centre : nat -> point) (m : mesh) (f : faces) (br : list (option nat)) (fm em nm : list Z) (m' : mesh) (nm' : list Z) : Prop :=
  m_projection m' = m_projection m /\
  m_nodes m' = m_nodes m ++ map (middle_point m) (marked_edges em) ++ map centre (centre_faces m f br fm em) /\
  (exists inner, thinned (fun p => neighbour m (fst p) (snd p)) (inner_pairs m f br fm em) inner /\
    m_edges m' = map (first_half m em) (seq 0 (length (m_edges m))) ++ map pair_edge inner ++ map (second_half m em) (marked_edges em)) /\
  nm' = nm ++ map (middle_mask m nm) (marked_edges em) ++ map (centre_mask f nm) (centre_faces m f br fm em).

(** *** Hanging nodes *)

(** The hanging nodes of a face: number [j + 1] if edges [j] and [j + 1] are brothers for one of them. *)
Definition hanging_edge (br : list (option nat)) (es : list nat) (j : nat) : bool := with_previous br es j || with_next br es j.
Definition hanging_node (br : list (option nat)) (es : list nat) (j : nat) : bool := with_previous br es j || with_next br es (j + length es - 1).
Definition count_of (P : nat -> bool) (k : nat) : nat := length (filter P (seq 0 k)).

(** *** The faces to split *)

(** A face that must be split: a hanging edge is to be split, or it would get more than six nodes, or at most one edge would stay whole, or all are split. *)
Definition must_split (br : list (option nat)) (em : list Z) (es : list nat) : Prop :=
  let k := length es in
  let n := count_of (fun j => marked em (item es j)) k in
  (exists j, j < k /\ hanging_edge br es j = true /\ marked em (item es j) = true) \/
  6 < k + n \/
  (count_of (hanging_node br es) k + n = k \/ count_of (hanging_node br es) k + n + 1 = k) \/
  n = k - count_of (hanging_edge br es) k / 2.

(** The faces that may still be split: mask 0 or -1. *)
Definition undecided (fm : list Z) (i : nat) : bool := (value fm i =? 0)%Z || (value fm i =? -1)%Z.
Definition zero_or_one (em : list Z) : Prop := forall e, value em e = 0%Z \/ value em e = 1%Z.
Definition zeros (em : list Z) : nat := length (filter (fun v => v =? 0)%Z em).
(** Everything that is not hanging is marked. *)
Definition all_marked (br : list (option nat)) (em : list Z) (es : list nat) : Prop :=
  forall j, j < length es -> hanging_edge br es j = false -> marked em (item es j) = true.
Definition covers (em em' : list Z) : Prop := forall e, marked em e = true -> marked em' e = true.
(** Every face that may be split and must be split has all its edges marked, the hanging ones apart. *)
Definition settled (f : faces) (br : list (option nat)) (fm em : list Z) : Prop :=
  forall i, i < num_faces f -> undecided fm i = true -> must_split br em (edges_of f i) -> all_marked br em (edges_of f i).

(** *** The edges to the hanging nodes *)

(** The sides of a face, a pair of brothers being one side: the node where the side ends and the hanging node on it. *)
Definition sides (br : list (option nat)) (ns es : list nat) : list (nat * option nat) :=
  map (fun j => (item ns (j + 1), if with_previous br es j then Some (item ns j) else None)) (filter (fun j => negb (with_next br es j)) (seq 0 (length es))).
Definition corner (s : list (nat * option nat)) (x : nat) : option nat := Some (fst (nth (x mod length s) s (0, None))).
Definition on_side (s : list (nat * option nat)) (x : nat) : option nat := snd (nth (x mod length s) s (0, None)).
Definition present (o : option nat) : bool := match o with Some _ => true | None => false end.
(** The new edges for [h] hanging nodes; side [x] is the first with a hanging node. *)
Definition links_from (s : list (nat * option nat)) (h x : nat) : list (option nat * option nat) :=
  if length s =? 4 then
    if h =? 1 then [(corner s (x + 2), on_side s x); (corner s (x + 1), on_side s x)]
    else if h =? 2 then
      if present (on_side s (x + 3)) then [(on_side s (x + 3), on_side s x); (on_side s x, corner s (x + 1)); (corner s (x + 1), on_side s (x + 3))]
      else if present (on_side s (x + 1)) then [(on_side s x, on_side s (x + 1)); (on_side s (x + 1), corner s (x + 2)); (corner s (x + 2), on_side s x)]
      else if present (on_side s (x + 2)) then [(on_side s x, on_side s (x + 2))]
      else if x =? 3 then [(None, None)] else []          (* only if the brothers are not mutual; the last side alone is refused *)
    else []
  else
    if h =? 1 then [(on_side s x, corner s (x + 1))]
    else if h =? 2 then [(on_side s x, if present (on_side s (x + 2)) then on_side s (x + 2) else on_side s (x + 1))] else [].
Definition links (br : list (option nat)) (ns es : list nat) : list (option nat * option nat) :=
  let s := sides br ns es in
  match find (fun x => present (on_side s x)) (seq 0 (length s)) with
  | Some x => links_from s (length es - length s) x
  | None => []
  end.
(** A face that can be dealt with: without hanging nodes, or with three or four sides. *)
Definition connectable (br : list (option nat)) (ns es : list nat) : Prop :=
  (length es = length (sides br ns es) \/ length (sides br ns es) = 3 \/ length (sides br ns es) = 4) /\
  (length es <> length (sides br ns es) -> forall p, In p (links br ns es) -> present (fst p) = true /\ present (snd p) = true).
Definition both_known (p : option nat * option nat) : list (nat * nat) := match p with (Some a, Some b) => [(a, b)] | _ => [] end.
Definition new_links (f : faces) (br : list (option nat)) : list (nat * nat) :=
  flat_map (fun i => if length (edges_of f i) =? length (sides br (nodes_of f i) (edges_of f i)) then [] else flat_map both_known (links br (nodes_of f i) (edges_of f i)))
    (seq 0 (num_faces f)).
(** A node is an end of one of the new edges. *)
Definition ends_at (l : list (option nat * option nat)) (n : nat) : Prop := exists p, In p l /\ (fst p = Some n \/ snd p = Some n).
(** The brother of an edge that is its neighbour in the face has that edge as its brother. *)
Definition mutual (br : list (option nat)) (es : list nat) : Prop := forall j, with_next br es j = with_previous br es (j + 1).

(** *** Brothers *)

(** Edges [a] and [b] follow each other at node [n], are sides of a common face, and the node is in the middle of their other ends. *)
Definition halves_at (centred : point -> point -> point -> bool) (m : mesh) (f : faces) (n j a b : nat) : Prop :=
  n < length (m_nodes m) /\ j < degree_of m n /\ nth j (row_of m n) None = Some a /\ nth ((j + 1) mod degree_of m n) (row_of m n) None = Some b /\
  (exists i, lists f i a /\ lists f i b) /\
  exists p q, joins (edge_at m a) n p /\ joins (edge_at m b) n q /\
    centred (nth p (m_nodes m) missing_point) (nth q (m_nodes m) missing_point) (nth n (m_nodes m) missing_point) = true.
Definition halves centred (m : mesh) (f : faces) (a b : nat) : Prop := exists n j, halves_at centred m f n j a b \/ halves_at centred m f n j b a.

(** *** Masks and whole refinement *)

(** Only sides of faces are marked. *)
Definition only_sides (f : faces) (em : list Z) : Prop := forall e, marked em e = true -> exists i, lists f i e.
(** No node has moved; nodes may have been removed or added. *)
Definition nodes_kept (m m' : mesh) : Prop :=
  m_projection m' = m_projection m /\ length (m_nodes m) <= length (m_nodes m') /\
  forall n, n < length (m_nodes m) -> nth n (m_nodes m') missing_point = nth n (m_nodes m) missing_point \/ nth n (m_nodes m') missing_point = missing_point.

(** Edge [e] is a side of a face. *)
Definition side_of (f : faces) (e : nat) : bool := existsb (fun i => existsb (Nat.eqb e) (edges_of f i)) (seq 0 (num_faces f)).
(** A node of a face that also has a node outside the selection. *)
Definition at_border (f : faces) (nm : list Z) (n : nat) : bool :=
  existsb (fun i => existsb (Nat.eqb n) (nodes_of f i) && existsb (fun n' => (value nm n' =? 0)%Z) (nodes_of f i)) (seq 0 (num_faces f)).
(** The faces that take part: at first those with a selected node, later those with selected nodes only. *)
Definition takes_part (first : bool) (nm : list Z) (ns : list nat) : bool :=
  if first then existsb (fun n => negb (value nm n =? 0)%Z && negb (value nm n =? -2)%Z) ns else forallb (fun n => (value nm n =? 1)%Z) ns.

(** *** Refining everything: every side of a face is halved, every triangle and every quadrilateral becomes four *)
Definition all_sides (m : mesh) (f : faces) : list nat := filter (side_of f) (seq 0 (length (m_edges m))).
Definition quads (f : faces) : list nat := filter (fun i => length (edges_of f i) =? 4) (seq 0 (num_faces f)).
Definition half_node (m : mesh) (f : faces) (e : nat) : nat := length (m_nodes m) + length (filter (side_of f) (seq 0 e)).
Definition quad_node (m : mesh) (f : faces) (i : nat) : nat :=
  length (m_nodes m) + length (all_sides m f) + length (filter (fun i => length (edges_of f i) =? 4) (seq 0 i)).
Definition within_face (m : mesh) (f : faces) (i : nat) : list (nat * nat) :=
  let h := half_node m f in
  match edges_of f i with
  | [a; b; c] => [(h a, h b); (h b, h c); (h c, h a)]
  | [a; b; c; d] => [(h a, quad_node m f i); (h b, quad_node m f i); (h c, quad_node m f i); (h d, quad_node m f i)]
  | _ => []
  end.
Definition all_halved (centre : nat -> point) (m : mesh) (f : faces) (m' : mesh) : Prop :=
  m_projection m' = m_projection m /\
  m_nodes m' = m_nodes m ++ map (middle_point m) (all_sides m f) ++ map centre (quads f) /\
  m_edges m' = map (fun e => if side_of f e then (fst (edge_at m e), Some (half_node m f e)) else edge_at m e) (seq 0 (length (m_edges m))) ++
    map pair_edge (flat_map (within_face m f) (seq 0 (num_faces f))) ++
    map (fun e => (Some (half_node m f e), snd (edge_at m e))) (all_sides m f).
(** Triangles and quadrilaterals without hanging nodes, all to be refined. *)
Definition three_or_four (f : faces) : Prop := forall i, i < num_faces f -> length (edges_of f i) = 3 \/ length (edges_of f i) = 4.
Definition no_pairs (f : faces) (br : list (option nat)) : Prop := forall i j, i < num_faces f -> on_its_own br (edges_of f i) j = true.
