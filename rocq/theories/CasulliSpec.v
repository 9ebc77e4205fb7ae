(** What the properties of the Casulli refinement are stated with. *)
From Verif Require Import Base FloatModel MeshModel MeshSpec FaceModel FaceSpec FlipSpec NodeTypeSpec FaceUseSpec CasulliModel.

(** *** The mask *)
Definition at_node (m : mesh) (e n : nat) : Prop := e < length (m_edges m) /\ ends_in (edge_at m e) n.
(** Some face has both edges. *)
Definition has_edge (f : faces) (e i : nat) : bool := existsb (Nat.eqb e) (nth i (faces_edges f) []).
Definition together (f : faces) (e e' : nat) : bool := existsb (fun i => has_edge f e i && has_edge f e' i) (seq 0 (num_faces f)).
(** Number of places around node [n] where an edge and the next one belong to the same face. *)
Definition paired (m : mesh) (f : faces) (n j : nat) : bool :=
  match nth j (row_of m n) None, nth ((j + 1) mod degree_of m n) (row_of m n) None with Some e, Some e' => together f e e' | _, _ => false end.
Definition pairs (m : mesh) (f : faces) (n : nat) : nat := length (filter (paired m f n) (seq 0 (degree_of m n))).

Section Masks.
  Variable inside : point -> bool.
  Variable types : list Z.
  Variable m : mesh.
  Variable f : faces.
  Definition on_rim (n : nat) : Prop := exists e, at_node m e n /\ on_boundary f e.
  (** Two boundary edges of one face meet at [n]. *)
  Definition outer_corner (n : nat) : Prop :=
    exists i e e', e <> e' /\ lists f i e /\ lists f i e' /\ at_node m e n /\ at_node m e' n /\ on_boundary f e /\ on_boundary f e'.
  Definition left_alone (n : nat) : Prop := inside (nth n (m_nodes m) missing_point) = false \/ degree_of m n <= 1 \/ pairs m f n = 0.
  Definition cornered (n : nat) : Prop :=
    outer_corner n \/ nth n types 0%Z = 3%Z \/ (on_rim n /\ pairs m f n < degree_of m n - 1) \/ (~ on_rim n /\ max_edges_per_node < pairs m f n).
  Definition mask_is (n : nat) (v : mask) : Prop :=
    match v with
    | Unassigned => left_alone n
    | Corner => ~ left_alone n /\ cornered n
    | Boundary => ~ left_alone n /\ ~ cornered n /\ on_rim n
    | Registered => ~ left_alone n /\ ~ cornered n /\ ~ on_rim n
    | _ => False
    end.
End Masks.

(** *** New nodes *)
Definition marked (masks : list mask) (n : nat) : bool := match nth n masks Unassigned with Registered | Boundary | Corner => true | _ => false end.

(** Face [i] goes along edge [e] from node [a] to node [b]. *)
Definition walks (f : faces) (i a b e : nat) : Prop :=
  exists ns es k, nth_error (faces_nodes f) i = Some ns /\ nth_error (faces_edges f) i = Some es /\ cyclic ns k = Some a /\ cyclic ns (S k) = Some b /\ cyclic es k = Some e.
(** Different faces go along an edge in different directions, and have at most one edge in common. *)
Definition oriented (f : faces) : Prop := forall i j a b e, walks f i a b e -> walks f j a b e -> i = j.
Definition apart (f : faces) : Prop := forall i j e e', e <> e' -> lists f i e -> lists f i e' -> lists f j e -> lists f j e' -> i = j.
(** Every edge at a node belongs to a face. *)
Definition none_loose (m : mesh) (f : faces) : Prop := forall n e, In (Some e) (row_of m n) -> exists i, lists f i e.

Section New.
  Variable masks : list mask.
  Variable m : mesh.
  Variable f : faces.
  Variable centres : list point.
  Definition old_point (n : nat) : point := nth n (m_nodes m) missing_point.
  Definition mid_point (p q : point) : point :=
    Pt (fmul (double_of 1 (-1)) (fadd (px p) (px q))) (fmul (double_of 1 (-1)) (fadd (py p) (py q))).

  (** Marked corners of faces, and marked ends of boundary edges: each gets a new node. *)
  Definition corners : list (nat * nat) :=
    filter (fun c => marked masks (snd c)) (flat_map (fun i => map (pair i) (nth i (faces_nodes f) [])) (seq 0 (num_faces f))).
  Definition single (e : nat) : bool := nth e (edges_num_faces f) 0 =? 1.
  Definition two_of (e : nat) : list (nat * nat) := match edge_at m e with (Some a, Some b) => [(e, a); (e, b)] | _ => [] end.
  Definition sides : list (nat * nat) :=
    filter (fun c => marked masks (snd c)) (flat_map two_of (filter single (seq 0 (length (m_edges m))))).
  Definition corner_point (c : nat * nat) : point := mid_point (nth (fst c) centres missing_point) (old_point (snd c)).
  Definition side_point (c : nat * nat) : point :=
    match edge_at m (fst c) with
    | (Some a, Some b) => mid_point (mid_point (old_point a) (old_point b)) (old_point (snd c))
    | _ => missing_point
    end.
  Definition new_points : list point := map corner_point corners ++ map side_point sides.

  Fixpoint index_of (c : nat * nat) (l : list (nat * nat)) : nat :=
    match l with [] => 0 | x :: t => if (fst c =? fst x) && (snd c =? snd x) then 0 else S (index_of c t) end.
  (** The node that takes the place of node [n] in face [i], on the outside of edge [e]; a node that is not marked stays. *)
  Definition in_face (i n : nat) : nat := if marked masks n then length (m_nodes m) + index_of (i, n) corners else n.
  Definition at_side (e n : nat) : nat := if marked masks n then length (m_nodes m) + length corners + index_of (e, n) sides else n.

  (** The face that goes along [e] from [a] to [b], if any. *)
  Definition goes (i a b e : nat) : bool :=
    existsb (fun k => match cyclic (nth i (faces_nodes f) []) k, cyclic (nth i (faces_nodes f) []) (S k), cyclic (nth i (faces_edges f) []) k with
                      | Some a', Some b', Some e' => (a' =? a) && (b' =? b) && (e' =? e) | _, _, _ => false end) (seq 0 (length (nth i (faces_nodes f) []))).
  Definition face_along (a b e : nat) : option nat := find (fun i => goes i a b e) (seq 0 (num_faces f)).
  (** What takes the place of node [n] on the side of [e] where faces go from [a] to [b]. *)
  Definition beside (a b e n : nat) : nat := match face_along a b e with Some i => in_face i n | None => at_side e n end.
  Definition used (e : nat) : bool := negb (nth e (edges_num_faces f) 0 =? 0).

  (** The new edges along and across edge [e]. *)
  Definition lines (e : nat) : list (nat * nat) :=
    match edge_at m e with
    | (Some a, Some b) =>
        if used e then
          (if marked masks a || marked masks b then [(beside b a e a, beside b a e b); (beside a b e a, beside a b e b)] else []) ++
          (if marked masks a then [(beside b a e a, beside a b e a)] else []) ++
          (if marked masks b then [(beside b a e b, beside a b e b)] else [])
        else []
    | _ => []
    end.
  (** The new edges from node [n] to the nodes that take its place at edge [e]. *)
  Definition to_both (n e : nat) : list (nat * nat) :=
    match edge_at m e with (Some a, Some b) => [(n, beside b a e n); (n, beside a b e n)] | _ => [] end.
  Definition listed (n : nat) : list nat := flat_map (fun oe => match oe with Some e => [e] | None => [] end) (row_of m n).
  Definition rim_edges (n : nat) : list nat := filter single (listed n).
  (** The new edges at a node of the boundary, or at a corner. *)
  Definition around (n : nat) : list (nat * nat) :=
    match nth n masks Unassigned with
    | Boundary => flat_map (to_both n) (filter (fun e => negb (single e)) (listed n)) ++
        match rim_edges n with [e; e'] => [(at_side e n, at_side e' n)] | _ => [] end
    | Corner => flat_map (to_both n) (filter (fun e => negb (single e)) (listed n)) ++ map (fun e => (n, at_side e n)) (rim_edges n)
    | _ => []
    end.
  (** Once more at corners with more than four edges. *)
  Definition again (n : nat) : list (nat * nat) :=
    match nth n masks Unassigned with Corner => if 4 <? degree_of m n then flat_map (to_both n) (listed n) else [] | _ => [] end.
  Definition new_lines : list (nat * nat) :=
    flat_map lines (seq 0 (length (m_edges m))) ++ flat_map around (seq 0 (length (m_nodes m))) ++ flat_map again (seq 0 (length (m_nodes m))).
End New.

(** *** The refined mesh *)
(** Nodes that are taken away after they have been replaced. *)
Definition replaced (masks : list mask) (n : nat) : bool := match nth n masks Unassigned with Registered | Boundary => true | _ => false end.
Definition points_after (masks : list mask) (m : mesh) (f : faces) (centres : list point) : list point :=
  map (fun n => if replaced masks n then missing_point else old_point m n) (seq 0 (length (m_nodes m))) ++ new_points masks m f centres.
Definition edges_after (masks : list mask) (m : mesh) (f : faces) : list edge :=
  m_edges m ++ map (fun p => (Some (fst p), Some (snd p))) (new_lines masks m f).
