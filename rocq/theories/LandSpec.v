(** What the properties of the land boundaries are stated with. *)
From Verif Require Import Base FloatModel FloatReal MeshModel MeshSpec FaceModel FaceSpec FlipSpec PolyModel.

Definition point_at (land : list point) (n : nat) : point := nth n land missing_point.

Section Land.
  Variable dist dist2 : point -> point -> double.
  Variable line : point -> point -> point -> double * point * double.
  Variable land : list point.

  (** *** The nearest segment *)

  (** Segment [n], between the points [n] and [n + 1], has two points; its distance from [p] is [d], its point nearest to [p] is [q]. *)
  Definition segment (n : nat) (p : point) (d : double) (q : point) (r : double) : Prop :=
    is_valid (point_at land n) = true /\ is_valid (point_at land (S n)) = true /\ line p (point_at land n) (point_at land (S n)) = (d, q, r).
  (** Its distance is positive and not too large. *)
  Definition counts (n : nat) (p : point) (d : double) : Prop :=
    (exists q r, segment n p d q r) /\ SFltb (double_of 0 0) d = true /\ SFltb d dbl_max = true.
  (** Segment [i] is the first nearest to [p] among the segments [a] to [b - 1]. *)
  Definition is_nearest (a b : nat) (p : point) (i : nat) (d : double) (q : point) (r : double) : Prop :=
    a <= i < b /\ segment i p d q r /\ counts i p d /\
    forall n d', a <= n < b -> counts n p d' -> SFltb d' d = false /\ (n < i -> SFltb d d' = true).
  Definition none_near (a b : nat) (p : point) : Prop := forall n d, a <= n < b -> ~ counts n p d.

  (** *** Edges close to a piece *)

  Definition distance_to (n : nat) (p : point) : double := fst (fst (line p (point_at land n) (point_at land (S n)))).
  Definition ratio_at (n : nat) (p : point) : double := snd (line p (point_at land n) (point_at land (S n))).
  (** The segment has a length and one of the points is near. *)
  Definition near (close : double) (p q : point) (n : nat) : Prop :=
    SFltb (double_of 0 0) (dist2 (point_at land n) (point_at land (S n))) = true /\ (SFltb (distance_to n p) close = true \/ SFltb (distance_to n q) close = true).
  (** The first near point of the two projects on the segment. *)
  Definition faces_it (close : double) (p q : point) (n : nat) : Prop :=
    let r := ratio_at n (if SFltb (distance_to n p) close then p else q) in SFleb (double_of 0 0) r = true /\ SFleb r (double_of 1 0) = true.
  (** The segment found: the first near one faced by the edge, otherwise the last near one. *)
  Definition close_segment (a b : nat) (close : double) (p q : point) (o : option nat) : Prop :=
    match o with
    | None => forall n, a <= n < b -> ~ near close p q n
    | Some i => a <= i < b /\ near close p q i /\ (forall n, a <= n < i -> near close p q n -> ~ faces_it close p q n) /\
                (faces_it close p q i \/ forall n, i < n < b -> ~ near close p q n)
    end.
End Land.

(** *** The pieces *)

(** The segment [n] has two points, one of them inside the polygons. *)
Definition touches (inside : point -> bool) (land : list point) (n : nat) : bool :=
  is_valid (point_at land n) && is_valid (point_at land (S n)) && (inside (point_at land n) || inside (point_at land (S n))).
(** The segments of the pieces. *)
Definition segments (l : list (nat * nat)) : list nat := flat_map (fun r => seq (fst r) (snd r - fst r)) l.
Definition middle_of (r : nat * nat) : nat := fst r + (snd r - fst r) / 2.
Definition long (r : nat * nat) : bool := 1 <? snd r - fst r.
(** All that is longer than one segment is cut in the middle; the second halves come behind. *)
Definition cut_in_two (l : list (nat * nat)) : list (nat * nat) :=
  map (fun r => if long r then (fst r, middle_of r) else r) l ++ map (fun r => (middle_of r, snd r)) (filter long l).

(** *** The faces along a piece *)

Section Faces.
  Variable f : faces.
  Variable c : nat -> bool.      (* which edges are close *)
  Definition touched (i : nat) : Prop := exists e, lists f i e /\ c e = true.
  Definition at_edge (i : nat) : Prop := exists e, lists f i e /\ nth_error (edges_num_faces f) e = Some 1.
  (** Reached from face [s] across edges, through faces with a close edge. *)
  Inductive reached (s : nat) : nat -> Prop :=
  | reached_start : reached s s
  | reached_next i j e : reached s i -> lists f i e -> lists f j e -> i <> j -> touched j -> reached s j.
  (** The faces masked for a piece. *)
  Definition along (start : option nat) (i : nat) : Prop :=
    match start with
    | None => i < num_faces f /\ at_edge i /\ touched i
    | Some s => if num_faces f <? 3 then i = s else reached s i
    end.
End Faces.

(** Edge [e] is close to the piece from [a] to [b]: a segment is nearer to one of its ends than its length times the factor. *)
Definition edge_close dist dist2 line (land : list point) (a b : nat) (factor : double) (m : mesh) (e : nat) : Prop :=
  exists u v p q n, edge_at m e = (Some u, Some v) /\ nth_error (m_nodes m) u = Some p /\ nth_error (m_nodes m) v = Some q /\ a <= n < b /\
    near dist2 line land (fmul (dist p q) factor) p q n.
(** The first face met: a point of the piece is in it, or a segment crosses a boundary edge of it. *)
Fixpoint first_known (l : list (option nat)) : option nat := match l with [] => None | Some i :: _ => Some i | None :: l => first_known l end.
Definition met (face_of : list (option nat)) (crossed : point -> point -> option nat) (land : list point) (n : nat) : option nat :=
  match nth n face_of None with Some i => Some i | None => crossed (point_at land n) (point_at land (S n)) end.
Definition first_met face_of crossed (land : list point) (a b : nat) : option nat := first_known (map (met face_of crossed land) (seq a (b - a))).

(** *** Shortest paths *)

(** A number that is not negative. *)
Definition good (x : double) : Prop := is_double x /\ xle (double_of 0 0) x.

Section Paths.
  Variable m : mesh.
  Variable allowed : nat -> Prop.
  Variable cost : nat -> nat -> nat -> double -> Prop.  (* node, edge, neighbour, length *)
  Variable start : nat.
  (** A path of the given length from the start over allowed nodes; the last need not be allowed.  The lengths are added from the start on. *)
  Inductive route : nat -> double -> Prop :=
  | route_start : route start (double_of 0 0)
  | route_step n l e o w : route n l -> (n = start \/ allowed n) -> In (Some e) (row_of m n) -> joins (edge_at m e) n o -> cost n e o w -> route o (fadd l w).
  (** Following the edges recorded at the nodes back to the start: the nodes passed and the length. *)
  Inductive back (edges : list (option nat)) : list nat -> double -> Prop :=
  | back_start : back edges [start] (double_of 0 0)
  | back_step o ns l n e w : back edges (o :: ns) l -> nth_error edges n = Some (Some e) -> In (Some e) (row_of m o) -> joins (edge_at m e) o n -> cost o e n w ->
      ~ In n (o :: ns) -> (o = start \/ allowed o) -> back edges (n :: o :: ns) (fadd l w).
End Paths.

(** The length of a step along an edge: its length times the largest distance to the piece, of its ends or of the points of the piece in between; a million
    times as much for an edge inside the mesh if only the boundary is wanted. *)
Section Cost.
  Variable dist : point -> point -> double.
  Variable line : point -> point -> point -> double * point * double.
  Variables (land : list point) (a b : nat) (outer : bool) (m : mesh) (f : faces).
  Definition between_points (i j : nat) : list nat := seq (S (Nat.min i j)) (Nat.max i j - S (Nat.min i j)).
  Definition larger (x y : double) : double := if SFltb x y then y else x.
  Definition widest (p q : point) (i j : nat) (d d' : double) : double :=
    fold_left larger (map (fun n => fst (fst (line (point_at land n) p q))) (between_points i j)) (larger d d').
  Definition step_cost (n e o : nat) (w : double) : Prop :=
    exists p q i j d d' x x' r r', nth_error (m_nodes m) n = Some p /\ nth_error (m_nodes m) o = Some q /\ is_nearest line land a b p i d x r /\ is_nearest line land a b q j d' x' r' /\
      w = fmul (dist p q) (if outer && negb (match nth_error (edges_num_faces f) e with Some 1 => true | _ => false end)
                           then fmul (double_of 1000000 0) (widest p q i j d d') else widest p q i j d d') /\ w <> S754_nan.
  (** Every node with edges has a segment of the piece at a positive distance. *)
  Definition off_land : Prop := forall n p, nth_error (m_nodes m) n = Some p -> row_of m n <> [] -> exists i d, a <= i < b /\ counts line land i p d.
End Cost.
(** As good as infinite. *)
Definition endless (l : double) : Prop := exists d, is_equal d dbl_max = true /\ SFltb l d = false.

(** The edges recorded at the nodes: at the start none; following them from a node leads back to the start over allowed nodes or node 0; no path over allowed nodes
    is shorter, except perhaps an endless one. *)
Definition shortest m (allowed : nat -> Prop) cost (start : nat) (edges : list (option nat)) : Prop :=
  let free := fun x => allowed x \/ x = 0 in
  length edges = length (m_nodes m) /\ nth_error edges start = Some None /\
  (forall n, n < length (m_nodes m) -> n <> start -> nth_error edges n = Some None \/ exists ns l, back m free cost start edges (n :: ns) l) /\
  (forall n ns l, allowed n -> back m free cost start edges (n :: ns) l -> forall l', route m allowed cost start n l' -> SFltb l' l = false \/ endless l') /\
  (forall n, allowed n -> n <> start -> nth_error edges n = Some None -> forall l', route m allowed cost start n l' -> endless l').

(** *** Along a path *)

Section Walk.
  Variable line : point -> point -> point -> double * point * double.
  Variable land : list point.
  (** The distance to the nearest segment from [a] to [b - 1]; without one, the largest number. *)
  Definition gap (a b : nat) (p : point) (d : double) : Prop := (exists i q r, is_nearest line land a b p i d q r) \/ (none_near line land a b p /\ d = dbl_max).
  (** Node [n] fits the piece from [a] to [b]: it is not further than twice the distance of the nearest land boundary; a piece it already has is not nearer; if it
      has none and only the boundary is wanted, it is a boundary or corner node. *)
  Definition fits (types : list Z) (outer : bool) (pieces : list (nat * nat)) (r : nat * nat) (m : mesh) (piece : list (option nat)) (n : nat) : Prop :=
    exists p d least, nth_error (m_nodes m) n = Some p /\ gap (fst r) (snd r) p d /\ gap 0 (length land - 1) p least /\ SFltb d (fmul (double_of 2 0) least) = true /\
      match nth n piece None with
      | Some old => exists r' d', nth_error pieces old = Some r' /\ gap (fst r') (snd r') p d' /\ SFleb d d' = true
      | None => outer = true -> nth_error types n = Some 2%Z \/ nth_error types n = Some 3%Z
      end.
End Walk.
(** The pieces of the nodes of a path afterwards: [k] for a node that fits, unless it does so alone among its neighbours on the path and had a piece before or is
    the last. *)
Fixpoint settle (k : nat) (takes : nat -> bool) (old : nat -> option nat) (before : bool) (ns : list nat) : list (option nat) :=
  match ns with
  | [] => []
  | n :: t => (if takes n && (before || match t with [] => false | y :: _ => takes y || match old n with None => true | Some _ => false end end) then Some k else old n)
              :: settle k takes old (takes n) t
  end.

(** *** The ends of a path *)

Section Ends.
  Variable dist2 : point -> point -> double.
  Variable line : point -> point -> point -> double * point * double.
  Variable m : mesh.
  Variable marked : nat -> Prop.
  (** Edge [e] joins the marked nodes [u] and [v], at distance [d] of [p]. *)
  Definition marked_edge (p : point) (e u v : nat) (d : double) : Prop :=
    nth_error (m_edges m) e = Some (Some u, Some v) /\ marked u /\ marked v /\ d = fst (fst (line p (nth u (m_nodes m) missing_point) (nth v (m_nodes m) missing_point))).
  (** [n] is the end nearer to [p] of an edge between marked nodes, none of which is nearer to [p]. *)
  Definition closest_end (p : point) (n : nat) : Prop :=
    exists e u v d, marked_edge p e u v d /\ SFltb d dbl_max = true /\ (forall e' u' v' d', marked_edge p e' u' v' d' -> SFltb d' d = false) /\
      n = if SFleb (dist2 (nth u (m_nodes m) missing_point) p) (dist2 (nth v (m_nodes m) missing_point) p) then u else v.
End Ends.
(** The nodes from [stop] back to the start; only [stop] if nothing was recorded there. *)
Definition path_taken m allowed cost (start : nat) (edges : list (option nat)) (stop : nat) (ns : list nat) : Prop :=
  (exists t l, ns = stop :: t /\ back m allowed cost start edges ns l) \/ (ns = [stop] /\ stop <> start /\ nth_error edges stop = Some None).

(** *** Boundary nodes in between *)

(** Reached along boundary edges, over marked nodes. *)
Inductive along_boundary (m : mesh) (f : faces) (marked from : nat -> Prop) : nat -> Prop :=
| along_start n : from n -> along_boundary m f marked from n
| along_next n e o : along_boundary m f marked from n -> nth_error (edges_num_faces f) e = Some 1 -> joins (edge_at m e) n o -> marked o -> along_boundary m f marked from o.
(** The end of a piece nearer to [p]. *)
Definition nearer_point (dist2 : point -> point -> double) (land : list point) (p : point) (r : nat * nat) : point :=
  if SFleb (dist2 p (point_at land (fst r))) (dist2 p (point_at land (snd r))) then point_at land (fst r) else point_at land (snd r).
(** The two points of a piece added between the pieces [r] and [r'] near [p]: the nearer ends of both; within one piece, its two ends. *)
Definition connects dist2 (land : list point) (p : point) (r r' : nat * nat) (same : bool) (a b : point) : Prop :=
  a = nearer_point dist2 land p r /\
  b = (if same then Pt (fadd (px (point_at land (fst r))) (fsub (px (point_at land (snd r))) (px a))) (fadd (py (point_at land (fst r))) (fsub (py (point_at land (snd r))) (py a)))
       else nearer_point dist2 land p r').
(** The land boundary and the number of pieces were extended from [l0] points and [p0] pieces, by four points for each piece, a missing one before and behind it. *)
Section Added.
  Variables (l0 p0 : nat) (land : list point) (pieces : list (nat * nat)).
  Definition place (k : nat) : nat := l0 + 4 * (k - p0).
  Definition added dist2 (nodes : list point) (k : nat) (r : nat * nat) : Prop :=
    r = (place k + 1, place k + 2) /\ point_at land (place k) = missing_point /\ point_at land (place k + 3) = missing_point /\
    exists i j ri rj p, i < k /\ j < k /\ nth_error pieces i = Some ri /\ nth_error pieces j = Some rj /\ In p nodes /\
      connects dist2 land p ri rj (i =? j) (point_at land (fst r)) (point_at land (snd r)).
  (** What a node at [p] gets when there are [t] pieces: the first piece with the segment nearest to it, a new piece if it lies beyond its first or last segment. *)
  Definition given line (p : point) (t i : nat) : Prop :=
    exists k x y c d q r, k < t /\ nth_error pieces k = Some (x, y) /\ x <= c < y /\ (forall k' x' y', k' < k -> nth_error pieces k' = Some (x', y') -> ~ x' <= c < y') /\
      is_nearest line (firstn (place t) land) 0 (place t - 1) p c d q r /\
      i = if ((c =? x) && SFltb r (double_of 0 0)) || ((c =? y - 1) && SFltb (double_of 1 0) r) then t else k.
End Added.

(** *** Snapping *)

(** The point of the segments from [a] to [b - 1] nearest to [p]; [p] itself without one at a positive distance. *)
Definition landing line (land : list point) (a b : nat) (p q : point) : Prop := (exists i d r, is_nearest line land a b p i d q r) \/ (none_near line land a b p /\ q = p).
(** Inside, boundary and corner nodes. *)
Definition movable (types : list Z) (n : nat) : Prop := nth_error types n = Some 1%Z \/ nth_error types n = Some 2%Z \/ nth_error types n = Some 3%Z.
