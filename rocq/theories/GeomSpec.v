(** Specification of plane geometry over the real numbers, independent of the model. *)
From Coq Require Import Reals List.
Import ListNotations.
Open Scope R_scope.

Definition pt : Type := (R * R)%type.

(** A ring given by its vertices, each once; written as a closed polygon the first vertex is repeated at the end. *)
Definition closed (vs : list pt) : list pt := vs ++ firstn 1 vs.

(** a and b are consecutive in the polygon *)
Definition side (nodes : list pt) (a b : pt) : Prop := exists l1 l2, nodes = l1 ++ a :: b :: l2.

(** p is on the segment from a to b *)
Definition on_segment (a b p : pt) : Prop :=
  exists t, 0 <= t <= 1 /\ fst p = fst a + t * (fst b - fst a) /\ snd p = snd a + t * (snd b - snd a).

(** Twice the area of the triangle a, b, p; positive when p is to the left of the line from a to b *)
Definition left_of (a b p : pt) : R := (fst a * snd b + fst b * snd p + fst p * snd a) - (snd a * fst b + snd b * fst p + snd p * fst a).

(** The convex hull: all points satisfying every linear inequality satisfied by the vertices *)
Definition in_hull (vs : list pt) (p : pt) : Prop :=
  forall al be ga, (forall v, In v vs -> al * fst v + be * snd v <= ga) -> al * fst p + be * snd p <= ga.

(** A convex ring, anticlockwise: no vertex is to the right of a side, and for each side some vertex is strictly to the left. *)
Definition convex_ring (vs : list pt) : Prop :=
  forall a b, side (closed vs) a b ->
    (forall v, In v vs -> 0 <= left_of a b v) /\ (exists v, In v vs /\ 0 < left_of a b v).

(** No side of length zero *)
Definition no_zero_side (nodes : list pt) : Prop := forall a b, side nodes a b -> a <> b.

Definition translate (d v : pt) : pt := (fst v + fst d, snd v + snd d).

(** Sums over the sides of a polygon *)
Fixpoint sum_sides (f : pt -> pt -> R) (nodes : list pt) : R :=
  match nodes with
  | a :: ((b :: _) as t) => f a b + sum_sides f t
  | _ => 0
  end.

(** The shoelace formula and the centroid *)
Definition shoelace (nodes : list pt) : R := sum_sides (fun a b => fst a * snd b - fst b * snd a) nodes / 2.
Definition centroid (nodes : list pt) : pt :=
  (sum_sides (fun a b => (fst a + fst b) * (fst a * snd b - fst b * snd a)) nodes / (6 * shoelace nodes),
   sum_sides (fun a b => (snd a + snd b) * (fst a * snd b - fst b * snd a)) nodes / (6 * shoelace nodes)).

(** The smallest area the library reports *)
Definition small : R := 1 / 100000000.
