(** Properties C42, C44, C45, C46: circular indices, range checks, matrix edits, sorting and reordering. *)
From Coq Require Import Permutation.
From Verif Require Import Base FloatModel FloatReal UtilModel UtilSpec UtilProofs UtilSort.

(** *** C42 *)

(** C42: in range the next and the previous index are in range and undo one another; out of range both raise a constraint error. *)
Theorem C42_circular : forall n i,
  (i < n -> exists f b, next_forward i n = Ok f /\ next_backward i n = Ok b /\ f < n /\ b < n /\
                        next_backward f n = Ok i /\ next_forward b n = Ok i) /\
  (n <= i -> next_forward i n = Throw ConstraintErr /\ next_backward i n = Throw ConstraintErr).
Proof. exact circular_spec. Qed.

(** C42: going forward k times adds k modulo the size; after size steps, and not earlier, the start is reached again. *)
Theorem C42_steps : forall k i n, i < n -> forward_times k i n = Ok ((i + k) mod n).
Proof. exact forward_times_ok. Qed.

Theorem C42_round_trip : forall i n, i < n ->
  forward_times n i n = Ok i /\ forall k, 0 < k < n -> forward_times k i n <> Ok i.
Proof. exact round_trip. Qed.

(** C42: RotateIndex is the same function. *)
Theorem C42_rotate : forall i n forward, rotate_index i n forward = if forward then next_forward i n else next_backward i n.
Proof. exact rotate_is_next. Qed.

(** C42: FindNextIndex and FindPreviousIndex are the same functions for the indices of a vector; they return the missing value for an
    empty vector. *)
Theorem C42_find_around : forall {A} (l : list A) i,
  match l with
  | [] => find_next l i = None /\ find_previous l i = None
  | _ => i < length l -> exists f b, find_next l i = Some f /\ find_previous l i = Some b /\
           next_forward i (length l) = Ok f /\ next_backward i (length l) = Ok b
  end.
Proof. exact @find_around. Qed.

(** FindIndex returns the first position of an element, the missing value if there is none. *)
Theorem C42_find_index : forall {A} (eqb : A -> A -> bool) l el,
  match find_index eqb l el with
  | Some n => (exists a, nth_error l n = Some a /\ eqb a el = true) /\
              forall k a, k < n -> nth_error l k = Some a -> eqb a el = false
  | None => forall a, In a l -> eqb a el = false
  end.
Proof. exact @find_index_spec. Qed.

Example circular_met : next_forward 4 5 = Ok 0 /\ next_backward 0 5 = Ok 4 /\ forward_times 7 3 5 = Ok 0 /\ next_forward 0 0 = Throw ConstraintErr.
Proof. vm_compute. auto. Qed.

(** *** C44 *)

(** C44: for integers every check accepts exactly its documented range. *)
Theorem C44_range_checks_int : forall v l u vs, checks_meaning int_ops Z.lt Z.le eq v l u vs.
Proof. exact checks_int. Qed.

(** C44: for doubles likewise, with the order of the IEEE standard on the exact real values. *)
Theorem C44_range_checks_double : forall v l u vs,
  is_double v -> is_double l -> is_double u -> Forall is_double vs ->
  checks_meaning double_ops xlt xle xeq v l u vs.
Proof. exact checks_double. Qed.

(** C44: NaN is in no interval and outside no interval, so all interval checks reject it. *)
Theorem C44_nan : forall l u,
  check_in_closed double_ops S754_nan l u = Throw RangeErr /\ check_in_open double_ops S754_nan l u = Throw RangeErr /\
  check_outside_closed double_ops S754_nan l u = Throw RangeErr /\ check_outside_open double_ops S754_nan l u = Throw RangeErr.
Proof. exact nan_rejected. Qed.

Example range_checks_met :
  let d n := double_of n 0%Z in
  is_double (d 3%Z) /\ is_double (d 5%Z) /\ check_in_closed double_ops (d 3%Z) (d 3%Z) (d 5%Z) = Ok tt /\
  check_in_open double_ops (d 3%Z) (d 3%Z) (d 5%Z) = Throw RangeErr /\ check_one_of double_ops (d 5%Z) [d 1%Z; d 5%Z] = Ok tt /\
  check_none_of double_ops (d 5%Z) [d 1%Z; d 5%Z] = Throw RangeErr.
Proof. vm_compute. auto 10. Qed.

(** *** C45.  [junk] stands for the indeterminate entries of an enlarged matrix; the results do not depend on it. *)

(** C45: erasing rows b..e keeps the other rows, in order; an invalid range is rejected. *)
Theorem C45_erase_rows : forall {T} junk (m : matrix T) b e,
  ((0 <= b <= e)%Z /\ (e < Z.of_nat (mrows m))%Z ->
     exists m', erase_rows junk m b e = Ok m' /\
       Z.of_nat (mrows m') = (Z.of_nat (mrows m) - (e - b + 1))%Z /\ mcols m' = mcols m /\
       forall i j, i < mrows m' -> j < mcols m' ->
         entry m' i j = entry m (if (Z.of_nat i <? b)%Z then i else i + Z.to_nat (e - b + 1)) j) /\
  (~ ((0 <= b <= e)%Z /\ (e < Z.of_nat (mrows m))%Z) -> erase_rows junk m b e = Throw LinearAlgebraErr).
Proof. intros T. exact erase_rows_spec. Qed.

Theorem C45_erase_cols : forall {T} junk (m : matrix T) b e,
  ((0 <= b <= e)%Z /\ (e < Z.of_nat (mcols m))%Z ->
     exists m', erase_cols junk m b e = Ok m' /\
       Z.of_nat (mcols m') = (Z.of_nat (mcols m) - (e - b + 1))%Z /\ mrows m' = mrows m /\
       forall i j, i < mrows m' -> j < mcols m' ->
         entry m' i j = entry m i (if (Z.of_nat j <? b)%Z then j else j + Z.to_nat (e - b + 1))) /\
  (~ ((0 <= b <= e)%Z /\ (e < Z.of_nat (mcols m))%Z) -> erase_cols junk m b e = Throw LinearAlgebraErr).
Proof. intros T. exact erase_cols_spec. Qed.

(** C45: inserting a row puts it at its place and moves the later rows down by one. *)
Theorem C45_insert_row : forall {T} junk (m : matrix T) v d row,
  ((0 <= row <= Z.of_nat (mrows m))%Z -> length v = mcols m ->
     exists m', insert_row junk m v d row = Ok m' /\ mrows m' = S (mrows m) /\ mcols m' = mcols m /\
       forall i j, i < mrows m' -> j < mcols m' ->
         entry m' i j = match (Z.of_nat i ?= row)%Z with Lt => entry m i j | Eq => nth j v d | Gt => entry m (i - 1) j end) /\
  (~ (0 <= row <= Z.of_nat (mrows m))%Z -> insert_row junk m v d row = Throw LinearAlgebraErr).
Proof. intros T. exact insert_row_spec. Qed.

Theorem C45_insert_col : forall {T} junk (m : matrix T) v d col,
  ((0 <= col <= Z.of_nat (mcols m))%Z -> length v = mrows m ->
     exists m', insert_col junk m v d col = Ok m' /\ mcols m' = S (mcols m) /\ mrows m' = mrows m /\
       forall i j, i < mrows m' -> j < mcols m' ->
         entry m' i j = match (Z.of_nat j ?= col)%Z with Lt => entry m i j | Eq => nth i v d | Gt => entry m i (j - 1) end) /\
  (~ (0 <= col <= Z.of_nat (mcols m))%Z -> insert_col junk m v d col = Throw LinearAlgebraErr).
Proof. intros T. exact insert_col_spec. Qed.

(** C45: erasing an inserted row or column gives the matrix back. *)
Theorem C45_erase_undoes_insert : forall {T} junk junk' (m : matrix T) v d k m1,
  (insert_row junk m v d k = Ok m1 -> exists m2, erase_rows junk' m1 k k = Ok m2 /\ same_matrix m2 m) /\
  (insert_col junk m v d k = Ok m1 -> exists m2, erase_cols junk' m1 k k = Ok m2 /\ same_matrix m2 m).
Proof. intros T junk junk' m v d k m1. exact (conj (erase_inserted_row junk junk' m v d k m1) (erase_inserted_col junk junk' m v d k m1)). Qed.

(** C45: swapping exchanges exactly the two rows (columns). *)
Theorem C45_swap_rows : forall {T} (m : matrix T) a b,
  ((0 <= a < Z.of_nat (mrows m))%Z /\ (0 <= b < Z.of_nat (mrows m))%Z ->
     exists m', swap_rows m a b = Ok m' /\ mrows m' = mrows m /\ mcols m' = mcols m /\
       forall i j, i < mrows m' -> j < mcols m' ->
         entry m' i j = entry m (if (Z.of_nat i =? a)%Z then Z.to_nat b else if (Z.of_nat i =? b)%Z then Z.to_nat a else i) j) /\
  (~ ((0 <= a < Z.of_nat (mrows m))%Z /\ (0 <= b < Z.of_nat (mrows m))%Z) -> swap_rows m a b = Throw LinearAlgebraErr).
Proof. intros T. exact swap_rows_spec. Qed.

Theorem C45_swap_cols : forall {T} (m : matrix T) a b,
  ((0 <= a < Z.of_nat (mcols m))%Z /\ (0 <= b < Z.of_nat (mcols m))%Z ->
     exists m', swap_cols m a b = Ok m' /\ mrows m' = mrows m /\ mcols m' = mcols m /\
       forall i j, i < mrows m' -> j < mcols m' ->
         entry m' i j = entry m i (if (Z.of_nat j =? a)%Z then Z.to_nat b else if (Z.of_nat j =? b)%Z then Z.to_nat a else j)) /\
  (~ ((0 <= a < Z.of_nat (mcols m))%Z /\ (0 <= b < Z.of_nat (mcols m))%Z) -> swap_cols m a b = Throw LinearAlgebraErr).
Proof. intros T. exact swap_cols_spec. Qed.

Theorem C45_swap_twice : forall {T} (m : matrix T) a b,
  (forall m1, swap_rows m a b = Ok m1 -> exists m2, swap_rows m1 a b = Ok m2 /\ same_matrix m2 m) /\
  (forall m1, swap_cols m a b = Ok m1 -> exists m2, swap_cols m1 a b = Ok m2 /\ same_matrix m2 m).
Proof. intros T. exact swap_twice. Qed.

(** C45: ResizeAndFillMatrix keeps the common entries (if asked to) and fills the others, except for the case below. *)
Theorem C45_resize : forall {T} junk (m : matrix T) rows cols preserve fill,
  (0 <= rows)%Z -> (0 <= cols)%Z ->
  (preserve = true -> (cols > Z.of_nat (mcols m))%Z -> (Z.of_nat (mrows m) <= rows)%Z) ->
  exists m' resized, resize_and_fill junk m rows cols preserve fill = Ok (m', resized) /\
    Z.of_nat (mrows m') = rows /\ Z.of_nat (mcols m') = cols /\
    (resized = false <-> rows = Z.of_nat (mrows m) /\ cols = Z.of_nat (mcols m)) /\
    forall i j, i < mrows m' -> j < mcols m' ->
      entry m' i j = if preserve && (i <? mrows m) && (j <? mcols m) then entry m i j else fill.
Proof. intros T. exact resize_spec. Qed.

(** C45, refuted for the remaining case: fewer rows and more columns writes outside the matrix. *)
Theorem C45_resize_refuted : forall {T} junk (m : matrix T) rows cols fill,
  (0 <= rows)%Z -> (rows < Z.of_nat (mrows m))%Z -> (Z.of_nat (mcols m) < cols)%Z ->
  resize_and_fill junk m rows cols true fill = UB.
Proof. intros T. exact resize_out_of_bounds. Qed.

Definition sample_matrix : matrix nat := Matrix 3 2 (fun i j => 10 * i + j).
Definition entries (m : outcome (matrix nat)) : outcome (list (list nat)) :=
  let! m := m in Ok (map (fun i => map (entry m i) (seq 0 (mcols m))) (seq 0 (mrows m))).
Example matrix_edits_met :
  let j := fun _ _ : nat => 77 in
  entries (erase_rows j sample_matrix 1 1) = Ok [[0; 1]; [20; 21]] /\
  entries (insert_col j sample_matrix [5; 6; 7] 0 1) = Ok [[0; 5; 1]; [10; 6; 11]; [20; 7; 21]] /\
  entries (swap_rows sample_matrix 0 2) = Ok [[20; 21]; [10; 11]; [0; 1]] /\
  erase_cols j sample_matrix 0 2 = Throw LinearAlgebraErr /\
  resize_and_fill j sample_matrix 2 3 true 9 = UB.
Proof. vm_compute. auto 10. Qed.

(** *** C46 *)

(** C46: for a comparison that is a strict weak order on the elements the sorted indices are a permutation of the indices by
    non-decreasing value, equal values in their original order; and there is only one such list. *)
Theorem C46_sorted_indices : forall {T} (ltb : T -> T -> bool) v, strict_weak ltb v ->
  exists l, sorted_indices ltb v = Ok l /\ sorts ltb v l /\ forall l', sorts ltb v l' -> l' = l.
Proof. intros T. exact sorted_indices_unique. Qed.

(** C46: the comparison of doubles is a strict weak order as long as there are no NaNs. *)
Theorem C46_doubles : forall v, Forall (fun x => is_double x /\ x <> S754_nan) v -> strict_weak SFltb v.
Proof. exact double_strict_weak. Qed.

(** C46: reordering puts the element with the listed index at each place. *)
Theorem C46_reorder : forall {T} (v : list T) order, Forall (fun i => i < length v) order ->
  exists r, reorder_vector v order = Ok r /\ length r = length order /\
    forall k i, nth_error order k = Some i -> nth_error r k = nth_error v i.
Proof. intros T. exact reorder_vector_ok. Qed.

(** C46: reordering a matrix row in place terminates and gives the same result, for every permutation. *)
Theorem C46_in_place : forall {T} order n, Permutation order (seq 0 n) ->
  forall row : list T, length row = n -> forall fuel, n <= fuel ->
  exists r, reorder_row fuel row order = Some (Ok r) /\ reorder_vector row order = Ok r.
Proof. intros T. exact reorder_row_ok. Qed.

Example sorting_met :
  sorted_indices Nat.ltb [3; 1; 2; 1] = Ok [1; 3; 2; 0] /\ reorder_vector [3; 1; 2; 1] [1; 3; 2; 0] = Ok [1; 1; 2; 3] /\
  reorder_row 4 [3; 1; 2; 1] [1; 3; 2; 0] = Some (Ok [1; 1; 2; 3]) /\ Permutation [1; 3; 2; 0] (seq 0 4).
Proof.
  repeat split; try (vm_compute; reflexivity). cbn [seq].
  apply Permutation_sym, (Permutation_cons_app [1; 3; 2] [] 0). cbn [app].
  apply perm_skip. apply perm_swap.
Qed.

Print Assumptions C42_circular.
Print Assumptions C42_steps.
Print Assumptions C42_round_trip.
Print Assumptions C42_find_around.
Print Assumptions C42_find_index.
Print Assumptions C42_rotate.
Print Assumptions C44_range_checks_int.
Print Assumptions C44_range_checks_double.
Print Assumptions C44_nan.
Print Assumptions C45_erase_rows.
Print Assumptions C45_erase_cols.
Print Assumptions C45_insert_row.
Print Assumptions C45_insert_col.
Print Assumptions C45_erase_undoes_insert.
Print Assumptions C45_swap_rows.
Print Assumptions C45_swap_cols.
Print Assumptions C45_swap_twice.
Print Assumptions C45_resize.
Print Assumptions C45_resize_refuted.
Print Assumptions C46_sorted_indices.
Print Assumptions C46_doubles.
Print Assumptions C46_reorder.
Print Assumptions C46_in_place.
