(** What the mesh of the globe should be. *)
From Verif Require Import Base FloatModel GlobalModel.

(** The two ends of an edge, the smaller first. *)
Definition ends (e : nat * nat) : nat * nat := (Nat.min (fst e) (snd e), Nat.max (fst e) (snd e)).
(** No two nodes at the same position, no two edges between the same nodes, edges between existing nodes. *)
Definition proper (same : point -> point -> bool) (g : globe) : Prop :=
  (forall i j p q, i < j -> nth_error (g_nodes g) i = Some p -> nth_error (g_nodes g) j = Some q -> same q p = false) /\
  (forall i j e f, i < j -> nth_error (g_edges g) i = Some e -> nth_error (g_edges g) j = Some f -> ends e <> ends f) /\
  (forall e, In e (g_edges g) -> fst e < length (g_nodes g) /\ snd e < length (g_nodes g)).
(** Nothing is taken away. *)
Definition extends (g h : globe) : Prop := exists nodes edges, g_nodes h = g_nodes g ++ nodes /\ g_edges h = g_edges g ++ edges.
(** Node [i] stands for position [p]. *)
Definition stands_for (same : point -> point -> bool) (g : globe) (i : nat) (p : point) : Prop :=
  exists q, nth_error (g_nodes g) i = Some q /\ (q = p \/ same p q = true).
Definition joined (g : globe) (a b : nat) : Prop := In (a, b) (g_edges g) \/ In (b, a) (g_edges g).
(** The node after number [k] of a ring of [n]. *)
Definition after (n k : nat) : nat := if k + 1 =? n then 0 else k + 1.
Definition ring (g : globe) (is : list nat) : Prop := forall k, k < length is -> joined g (nth k is 0) (nth (after (length is) k) is 0).
(** There are nodes for the positions of a polygon, and edges along it. *)
Definition drawn (same : point -> point -> bool) (g : globe) (ps : list point) : Prop :=
  exists is, Forall2 (stands_for same g) is ps /\ ring g is.

(** A band of faces: the lower latitude, the steps, and whether its first face has a node halfway its lower side. *)
Record band := Band { b_lat : double; b_dlon : double; b_dlat : double; b_halfway : bool }.
Definition west (b : band) (j : nat) : double := fsub (fmul (double_of (Z.of_nat j) 0) (b_dlon b)) (double_of 180 0).
Definition fits (b : band) (j : nat) : Prop := SFleb (fadd (west b j) (b_dlon b)) (double_of 180 0) = true.
Definition lower (b : band) (j : nat) (halfway : bool) : list point :=
  Pt (west b j) (b_lat b) :: (if halfway then [Pt (fadd (west b j) (fmul (double_of 1 (-1)) (b_dlon b))) (b_lat b)] else []) ++
  [Pt (fadd (west b j) (b_dlon b)) (b_lat b)].
Definition upper (b : band) (j : nat) : list point :=
  [Pt (fadd (west b j) (b_dlon b)) (fadd (b_lat b) (b_dlat b)); Pt (west b j) (fadd (b_lat b) (b_dlat b))].
Definition on_side (side : Z) (p : point) : point := Pt (px p) (fmul (double_of side 0) (py p)).
(** The faces of a band: those that end before the date line, north and south; the halfway node is used by the first. *)
Definition face_of (columns : nat) (b : band) (ps : list point) : Prop :=
  exists j side halfway, j < columns /\ fits b j /\ (side = 1%Z \/ side = (-1)%Z) /\
    (halfway = true <-> b_halfway b = true /\ forall i, i < j -> ~ fits b i) /\ ps = map (on_side side) (lower b j halfway ++ upper b j).
(** What is new in a mesh are the nodes and sides of some faces. *)
Definition grown (same : point -> point -> bool) (g h : globe) (face : list point -> Prop) : Prop :=
  extends g h /\
  (forall q, In q (g_nodes h) -> In q (g_nodes g) \/ exists ps, face ps /\ In q ps) /\
  (forall e, In e (g_edges h) -> In e (g_edges g) \/
    exists ps is k, face ps /\ Forall2 (stands_for same h) is ps /\ k < length is /\ e = (nth k is 0, nth (after (length is) k) is 0)).
(** Bands on top of each other from a latitude; [idle] when the halfway node of the band below was not used.
    The last band goes to the pole when the next but one would not fit.  Other bands are as high as the latitude step, or half of what
    is left; their faces are twice as wide as those below when these would be too low. *)
Definition too_high (lat dlat : double) : Prop := SFltb (double_of 90 0) (fadd lat (fmul (double_of 3 (-1)) dlat)) = true.
Fixpoint stacked (step : double -> double -> double) (short : double -> bool) (columns : nat) (lat dlon : double) (idle : Prop) (bs : list band) : Prop :=
  match bs with
  | [] => True
  | b :: t =>
      b_lat b = lat /\
      (too_high lat (step lat dlon) -> b_dlon b = dlon /\ b_halfway b = false /\ b_dlat b = fsub (double_of 90 0) lat /\ t = []) /\
      (~ too_high lat (step lat dlon) ->
        (b_halfway b = true <-> short (step lat dlon) = true /\ ~ idle) /\
        b_dlon b = (if b_halfway b then fmul (double_of 2 0) dlon else dlon) /\
        (too_high lat (step lat (b_dlon b)) -> b_dlat b = fmul (fdiv (double_of 51 0) (double_of 100 0)) (fsub (double_of 90 0) lat)) /\
        (~ too_high lat (step lat (b_dlon b)) -> b_dlat b = step lat (b_dlon b)) /\
        stacked step short columns (fadd lat (b_dlat b)) (b_dlon b) (b_halfway b = true /\ forall j, j < columns -> ~ fits b j) t)
  end.
(** The last band reaches the pole. *)
Definition at_pole (bs : list band) : Prop := exists t b, bs = t ++ [b] /\ b_dlat b = fsub (double_of 90 0) (b_lat b) /\ b_halfway b = false.

(** Newton's iteration for the step at which the height of a face equals its width halfway. *)
Section Newton.
  Variable cosine root : double -> double.
  Variable radians lat dlon : double.
  Definition middle (d : double) : double := fmul radians (fadd lat (fmul (double_of 1 (-1)) d)).
  Definition excess (d : double) : double := fsub d (fmul dlon (cosine (middle d))).
  Definition slope (d : double) : double :=
    fadd (double_of 1 0) (fmul (fmul (fmul (double_of 1 (-1)) radians) dlon) (root (fsub (double_of 1 0) (fmul (cosine (middle d)) (cosine (middle d)))))).
  Fixpoint iterate (n : nat) : double :=
    match n with 0 => fmul dlon (cosine (fmul radians lat)) | S n => fsub (iterate n) (fdiv (excess (iterate n)) (slope (iterate n))) end.
  Definition settled (tolerance : double) (n : nat) : Prop := SFltb (fdiv (excess (iterate n)) (slope (iterate n))) tolerance = true.
End Newton.

(** The number of edges at a node. *)
Definition touches (a : nat) (e : option nat * option nat) : bool :=
  match e with (Some x, Some y) => (x =? a) || (y =? a) | _ => false end.
Definition degree (edges : list (option nat * option nat)) (a : nat) : nat := length (filter (touches a) edges).
(** An edge between nodes of five or six edges at the same latitude. *)
Definition superfluous (level : double -> double -> bool) (nodes : list point) (edges : list (option nat * option nat)) (e : option nat * option nat) : Prop :=
  exists a b p q, e = (Some a, Some b) /\ 5 <= degree edges a <= 6 /\ 5 <= degree edges b <= 6 /\
    nth_error nodes a = Some p /\ nth_error nodes b = Some q /\ level (py p) (py q) = true.
