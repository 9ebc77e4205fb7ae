(** Specification vocabulary for PolyProps. *)
From Coq Require Import Sorted Reals.
From Verif Require Import Base FloatModel FloatReal PolyModel.

Definition sep_at (vec : list point) (separator : double) (i : nat) : Prop :=
  exists p, nth_error vec i = Some p /\ is_equal (px p) separator = true.
Definition nonsep_at (vec : list point) (separator : double) (i : nat) : Prop :=
  exists p, nth_error vec i = Some p /\ is_equal (px p) separator = false.

(** [rs] is the list of the maximal runs of non-separators with indices in [s, e): inside the window, free of separators, not
    extensible, in increasing order without touching, covering every non-separator of the window. *)
Definition runs (vec : list point) (separator : double) (s e : nat) (rs : list (nat * nat)) : Prop :=
  (forall a b, In (a, b) rs ->
     s <= a /\ a <= b /\ b < e /\ (forall i, a <= i <= b -> nonsep_at vec separator i) /\
     (a = s \/ sep_at vec separator (a - 1)) /\ (b + 1 = e \/ sep_at vec separator (b + 1))) /\
  StronglySorted (fun r1 r2 => snd r1 + 1 < fst r2) rs /\
  (forall i, s <= i < e -> nonsep_at vec separator i -> exists a b, In (a, b) rs /\ a <= i <= b).

(** A geometry list holding exactly the points [pts]; the arrays may be longer. *)
Definition holds (g : geometry_list) (pts : list point) : Prop :=
  gnum g = length pts /\
  forall i p, nth_error pts i = Some p -> nth_error (gx g) i = Some (px p) /\ nth_error (gy g) i = Some (py p).

(** No point equals the one before it. *)
Definition no_repeats (pts : list point) : Prop :=
  forall i p q, nth_error pts i = Some p -> nth_error pts (i + 1) = Some q -> point_eq q p = false.

Inductive subsequence {A} : list A -> list A -> Prop :=
| sub_nil : subsequence [] []
| sub_skip a l r : subsequence l r -> subsequence l (a :: r)
| sub_keep a l r : subsequence l r -> subsequence (a :: l) (a :: r).

(** *** Bounding boxes *)
Definition finite_point (p : point) : Prop := finite (px p) /\ finite (py p).
Definition finite_box (b : bbox) : Prop := finite_point (lower b) /\ finite_point (upper b).

(** The point lies in the box, by the exact values of the coordinates. *)
Definition in_box (b : bbox) (p : point) : Prop :=
  (val (px (lower b)) <= val (px p) <= val (px (upper b)) /\ val (py (lower b)) <= val (py p) <= val (py (upper b)))%R.
(** The lower corner is below and left of the upper one. *)
Definition proper (b : bbox) : Prop :=
  (val (px (lower b)) <= val (px (upper b)) /\ val (py (lower b)) <= val (py (upper b)))%R.

(** *** Polygons *)

(** A ring as it appears in a polygon file: closed, at least four points, all valid and none of them the inner separator. *)
Definition good_ring (r : list point) : Prop :=
  4 <= length r /\ (exists p q t, r = p :: t /\ last r p = q /\ point_eq p q = true) /\
  Forall (fun p => is_valid p = true /\ is_equal (px p) separator_double = false) r.
Definition good_enclosure (e : enclosure) : Prop := good_ring (outer e) /\ Forall good_ring (inner e).

(** Where the outer rings of the enclosures lie in the gathered list. *)
Fixpoint outer_ranges (offset : nat) (es : list enclosure) : list (nat * nat) :=
  match es with
  | [] => []
  | e :: t => (offset, offset + length (outer e) - 1) :: outer_ranges (offset + length (gather_one e) + 1) t
  end.

(** [ls] are polylines each followed by its separator, [rest] an unterminated last one (possibly empty); none of them contains a
    separator. *)
Definition no_sep (separator : double) (l : list point) : Prop := Forall (fun p => is_equal (px p) separator = false) l.
Definition separated (separator : double) (ls : list (list point * point)) (rest : list point) : Prop :=
  Forall (fun '(l, s) => no_sep separator l /\ is_equal (px s) separator = true) ls /\ no_sep separator rest.
Definition written (ls : list (list point * point)) (rest : list point) : list point := flat_map (fun '(l, s) => l ++ [s]) ls ++ rest.

(** Every valid point lies in the box; every side of the box goes through a valid point. *)
Definition covers (b : bbox) (l : list point) : Prop :=
  forall p, In p l -> is_valid p = true -> in_box b p.
Definition attained (b : bbox) (l : list point) : Prop :=
  (exists p, In p l /\ is_valid p = true /\ val (px p) = val (px (lower b))) /\
  (exists p, In p l /\ is_valid p = true /\ val (py p) = val (py (lower b))) /\
  (exists p, In p l /\ is_valid p = true /\ val (px p) = val (px (upper b))) /\
  (exists p, In p l /\ is_valid p = true /\ val (py p) = val (py (upper b))).

(** Inside the outer ring and in no hole; inside the outer ring and in a hole. *)
Definition in_enclosure (contains : list point -> point -> bool) (e : enclosure) (p : point) : Prop :=
  contains (outer e) p = true /\ forall i, In i (inner e) -> contains i p = false.
Definition in_hole (contains : list point -> point -> bool) (e : enclosure) (p : point) : Prop :=
  contains (outer e) p = true /\ exists i, In i (inner e) /\ contains i p = true.
