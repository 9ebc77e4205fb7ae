(** Specification vocabulary for UtilProps. *)
From Coq Require Import Permutation Sorted.
From Verif Require Import Base UtilModel.

(** Going forward [k] times. *)
Fixpoint forward_times (k i n : nat) : outcome nat :=
  match k with O => Ok i | S k' => let! j := next_forward i n in forward_times k' j n end.

(** Two matrices with the same dimensions and the same entries. *)
Definition same_matrix {T} (m1 m2 : matrix T) : Prop :=
  mrows m1 = mrows m2 /\ mcols m1 = mcols m2 /\
  forall i j, i < mrows m1 -> j < mcols m1 -> entry m1 i j = entry m2 i j.

(** The comparison is a strict weak order on the elements of [v]: what std::stable_sort requires of its comparison. *)
Definition strict_weak {T} (ltb : T -> T -> bool) (v : list T) : Prop :=
  (forall a b, In a v -> In b v -> ltb a b = true -> ltb b a = false) /\
  (forall a b c, In a v -> In b v -> In c v -> ltb a c = true -> ltb a b = true \/ ltb b c = true).

(** [perm] lists the indices of [v] by increasing value, equal values in their original order. *)
Definition sorts {T} (ltb : T -> T -> bool) (v : list T) (perm : list nat) : Prop :=
  Permutation perm (seq 0 (length v)) /\
  forall p q i j a b, p < q -> nth_error perm p = Some i -> nth_error perm q = Some j ->
    nth_error v i = Some a -> nth_error v j = Some b ->
    ltb b a = false /\ (ltb a b = false -> i < j).

(** A check that accepts exactly if [P] holds and raises a range error otherwise. *)
Definition accepts (check : outcome unit) (P : Prop) : Prop :=
  (P -> check = Ok tt) /\ (~ P -> check = Throw RangeErr).

(** The documented meaning of the fourteen range checks, for a type with the order [lt], [le] and equality [eq]. *)
Definition checks_meaning {T} (c : comparisons T) (lt le eq : T -> T -> Prop) (v l u : T) (vs : list T) : Prop :=
  accepts (check_equal c v l) (eq v l) /\
  accepts (check_not_equal c v l) (~ eq v l) /\
  accepts (check_greater c v l) (lt l v) /\
  accepts (check_greater_equal c v l) (le l v) /\
  accepts (check_less c v u) (lt v u) /\
  accepts (check_less_equal c v u) (le v u) /\
  accepts (check_in_closed c v l u) (le l v /\ le v u) /\
  accepts (check_in_open c v l u) (lt l v /\ lt v u) /\
  accepts (check_in_right_half_open c v l u) (le l v /\ lt v u) /\
  accepts (check_in_left_half_open c v l u) (lt l v /\ le v u) /\
  accepts (check_outside_closed c v l u) (lt v l \/ lt u v) /\
  accepts (check_outside_open c v l u) (le v l \/ le u v) /\
  accepts (check_one_of c v vs) (exists x, In x vs /\ eq x v) /\
  accepts (check_none_of c v vs) (forall x, In x vs -> ~ eq x v).
