(** Plain vocabulary about polylines and chainages.  Independent of the code in NetworkModel, except for its data types. *)
From Coq Require Import QArith Sorting.Sorted Sorting.Permutation.
From Verif Require Import Base NetworkModel.
Local Open Scope Q_scope.

Definition sum_q (l : list Q) : Q := fold_right Qplus 0 l.
(** Chainage of node [k]: the total length of the first [k] segments. *)
Definition upto (lens : list Q) (k : nat) : Q := sum_q (firstn k lens).

Definition same_point (p q : qpoint) : Prop := fst p == fst q /\ snd p == snd q.

(** [p] lies on the polyline at distance [c] from its start, measured along the polyline. *)
Definition at_chainage (pl : list qpoint) (lens : list Q) (c : Q) (p : qpoint) : Prop :=
  exists k a b len, nth_error pl k = Some a /\ nth_error pl (S k) = Some b /\ nth_error lens k = Some len /\
    upto lens k <= c <= upto lens (S k) /\
    exists t, t * len == c - upto lens k /\ 0 <= t <= 1 /\
      same_point p (fst a + (fst b - fst a) * t, snd a + (snd b - snd a) * t).

(** The same chainages in increasing order. *)
Definition in_order (ch s : list Q) : Prop := Permutation ch s /\ StronglySorted Qle s.

(** No segment after the first is jumped over: if a chainage lies beyond the segment, some chainage lies in it. *)
Definition no_segment_skipped (lens ch : list Q) : Prop :=
  forall k, (1 <= k)%nat -> (S k <= length lens)%nat -> (exists c, In c ch /\ upto lens (S k) < c) ->
    exists c, In c ch /\ upto lens k < c <= upto lens (S k).

(** Every point between two chainages has a chainage at most [offset] further on. *)
Definition no_gap (offset : Q) (ch : list Q) : Prop :=
  forall x, (exists c, In c ch /\ c <= x) -> (exists c, In c ch /\ x < c) -> exists c, In c ch /\ x < c <= x + offset.

(** Points [a] and [b] are consecutive points of the same polyline, counting the points of all polylines. *)
Definition joined {A} (discs : list (list A)) (a b : nat) : Prop :=
  b = S a /\ exists k d, nth_error discs k = Some d /\ (length (concat (firstn k discs)) <= a)%nat /\ (b < length (concat (firstn k discs)) + length d)%nat.

Definition nonempty {A} (d : list A) : bool := match d with [] => false | _ => true end.

(** Fixed chainages far enough from each other and from both ends to have a grid point on each side. *)
Fixpoint spaced (min_size offset prev : Q) (fixed : list Q) : Prop :=
  match fixed with
  | [] => True
  | f :: t => prev + min_size <= f - offset /\ spaced min_size offset (f + offset) t
  end.

(** The points [ps] lie on the polyline in order, from its start to its end, at most [offset] apart. *)
Definition spread_over (dist : qpoint -> qpoint -> Q) (offset : Q) (pl : list qpoint) (ps : list (option qpoint)) : Prop :=
  exists s, StronglySorted Qle s /\ no_gap offset s /\
    (exists c, In c s /\ c == 0) /\ (exists c, In c s /\ c == sum_q (edge_lengths dist pl)) /\
    Forall2 (fun c p => exists q, p = Some q /\ at_chainage pl (edge_lengths dist pl) c q) s ps.
