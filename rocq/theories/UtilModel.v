(** Utilities: circular indices, range checks, dense matrices, sorting and reordering.
    Source: /repo/libs/MeshKernel/src/Operations.cpp and include/MeshKernel/Operations.hpp, RangeCheck.hpp,
    Utilities/NumericFunctions.hpp, Utilities/LinearAlgebra.hpp. *)
From Verif Require Import Base FloatModel.

(** *** Circular indices *)

(** NextCircularForwardIndex, Operations.cpp:116-129 *)
Definition next_forward (i size : nat) : outcome nat :=
  if size =? 0 then Throw ConstraintErr
  else if size <=? i then Throw ConstraintErr
  else Ok (if i =? size - 1 then 0 else i + 1).

(** NextCircularBackwardIndex, Operations.cpp:131-144 *)
Definition next_backward (i size : nat) : outcome nat :=
  if size =? 0 then Throw ConstraintErr
  else if size <=? i then Throw ConstraintErr
  else Ok (if i =? 0 then size - 1 else i - 1).

(** RotateIndex, NumericFunctions.hpp:72-93 *)
Definition rotate_index (i size : nat) (forward : bool) : outcome nat :=
  if size =? 0 then Throw ConstraintErr
  else if size <=? i then Throw ConstraintErr
  else if forward then Ok (if i =? size - 1 then 0 else i + 1)
  else Ok (if i =? 0 then size - 1 else i - 1).

(** FindNextIndex / FindPreviousIndex, Operations.hpp:142-164; [None] is the missing value. The index is not checked. *)
Definition find_next {A} (l : list A) (i : nat) : option nat :=
  if length l =? 0 then None else Some (if i =? length l - 1 then 0 else i + 1).
Definition find_previous {A} (l : list A) (i : nat) : option nat :=
  if length l =? 0 then None else Some (if i =? 0 then length l - 1 else i - 1).

(** FindIndex, Operations.hpp:126-139 *)
Fixpoint find_index {A} (eqb : A -> A -> bool) (l : list A) (el : A) : option nat :=
  match l with
  | [] => None
  | a :: t => if eqb a el then Some 0 else match find_index eqb t el with Some n => Some (S n) | None => None end
  end.

(** *** Range checks, RangeCheck.hpp.  [T] is the checked type with its operators < <= == (doubles or integers); messages are not
    modelled. *)
Record comparisons (T : Type) := Comparisons { op_lt : T -> T -> bool; op_le : T -> T -> bool; op_eq : T -> T -> bool }.
Arguments Comparisons {T} _ _ _.
Arguments op_lt {T} _ _ _.
Arguments op_le {T} _ _ _.
Arguments op_eq {T} _ _ _.
Definition int_ops : comparisons Z := Comparisons Z.ltb Z.leb Z.eqb.
Definition double_ops : comparisons spec_float := Comparisons SFltb SFleb SFeqb.
Section RangeCheck.
  Context {T : Type}.
  Variable c : comparisons T.
  Notation ltb := (op_lt c).
  Notation leb := (op_le c).
  Notation eqb := (op_eq c).

  (** CheckRange, RangeCheck.hpp:99-170 *)
  Definition check_range (ok : bool) : outcome unit := if negb ok then Throw RangeErr else Ok tt.

  Definition check_equal v b := check_range (eqb v b).                     (* 178-188 *)
  Definition check_not_equal v b := check_range (negb (eqb v b)).          (* 196-206 *)
  Definition check_greater v b := check_range (ltb b v).                   (* 214-224 *)
  Definition check_greater_equal v b := check_range (leb b v).             (* 232-242 *)
  Definition check_less v b := check_range (ltb v b).                      (* 250-260 *)
  Definition check_less_equal v b := check_range (leb v b).                (* 268-278 *)
  Definition check_in_closed v l u := check_range (leb l v && leb v u).    (* 287-304 *)
  Definition check_in_open v l u := check_range (ltb l v && ltb v u).      (* 330-347 *)
  Definition check_in_right_half_open v l u := check_range (leb l v && ltb v u). (* 373-390 *)
  Definition check_in_left_half_open v l u := check_range (ltb l v && leb v u).  (* 416-433 *)
  Definition check_outside_closed v l u := check_range (ltb v l || ltb u v).     (* 459-476 *)
  Definition check_outside_open v l u := check_range (leb v l || leb u v).       (* 502-519 *)
  Definition check_one_of v l := check_range (existsb (fun i => eqb i v) l).     (* 544-560 *)
  Definition check_none_of v l := check_range (forallb (fun i => negb (eqb i v)) l). (* 568-584 *)
End RangeCheck.

(** *** Dense matrices.  An Eigen matrix is its dimensions and its entries; entries outside the dimensions are meaningless.
    Source: Utilities/LinearAlgebra.hpp.  Eigen::Index is signed: indices and sizes passed by callers are [Z]. *)
Record matrix (T : Type) := Matrix { mrows : nat; mcols : nat; entry : nat -> nat -> T }.
Arguments Matrix {T} _ _ _.
Arguments mrows {T} _.
Arguments mcols {T} _.
Arguments entry {T} _ _ _.

Section Matrix.
  Context {T : Type}.
  Implicit Types m : matrix T.

  (** matrix(i, j) = v *)
  Definition put_entry (f : nat -> nat -> T) (i j : nat) (v : T) : nat -> nat -> T :=
    fun a b => if (a =? i) && (b =? j) then v else f a b.

  (** matrix.block(r, c, h, w) = matrix.block(r0, c0, h, w): Eigen assigns coefficient by coefficient in storage order (row major)
      without a temporary. *)
  Definition copy_block (f : nat -> nat -> T) (r c r0 c0 h w : nat) : nat -> nat -> T :=
    fold_left (fun f ij => put_entry f (r + fst ij) (c + snd ij) (f (r0 + fst ij) (c0 + snd ij)))
              (list_prod (seq 0 h) (seq 0 w)) f.

  (** matrix.block(r, c, h, w) = block, for a block with its own storage *)
  Definition write_block (f : nat -> nat -> T) (r c h w : nat) (b : nat -> nat -> T) : nat -> nat -> T :=
    fold_left (fun f ij => put_entry f (r + fst ij) (c + snd ij) (b (fst ij) (snd ij))) (list_prod (seq 0 h) (seq 0 w)) f.

  (** matrix.conservativeResize(rows, cols): entries present before and after are kept, the others are indeterminate ([junk]). *)
  Definition conservative_resize (junk : nat -> nat -> T) m (rows cols : nat) : matrix T :=
    Matrix rows cols (fun i j => if (i <? mrows m) && (j <? mcols m) && (i <? rows) && (j <? cols) then entry m i j else junk i j).

  (** EraseRows, LinearAlgebra.hpp:117-143 *)
  Definition erase_rows junk m (b e : Z) : outcome (matrix T) :=
    if ((b <? 0) || (e <? b) || (Z.of_nat (mrows m) - 1 <? e))%Z then Throw LinearAlgebraErr
    else
      let b := Z.to_nat b in let e := Z.to_nat e in
      let rows_new := mrows m - (e - b + 1) in
      let moved := Matrix (mrows m) (mcols m) (copy_block (entry m) b 0 (e + 1) 0 (rows_new - b) (mcols m)) in
      Ok (conservative_resize junk moved rows_new (mcols m)).

  (** EraseCols, LinearAlgebra.hpp:162-188 *)
  Definition erase_cols junk m (b e : Z) : outcome (matrix T) :=
    if ((b <? 0) || (e <? b) || (Z.of_nat (mcols m) - 1 <? e))%Z then Throw LinearAlgebraErr
    else
      let b := Z.to_nat b in let e := Z.to_nat e in
      let cols_new := mcols m - (e - b + 1) in
      let moved := Matrix (mrows m) (mcols m) (copy_block (entry m) 0 b 0 (e + 1) (mrows m) (cols_new - b)) in
      Ok (conservative_resize junk moved (mrows m) cols_new).

  (** InsertRow, LinearAlgebra.hpp:207-225.  A row of the wrong length is an Eigen assertion (undefined in release builds). *)
  Definition insert_row junk m (v : list T) (d : T) (row : Z) : outcome (matrix T) :=
    if ((row <? 0) || (Z.of_nat (mrows m) <? row))%Z then Throw LinearAlgebraErr
    else
      let r := Z.to_nat row in
      let down := fun i j => entry m (r + i) j in
      let m1 := conservative_resize junk m (mrows m + 1) (mcols m) in
      if length v =? mcols m then
        let f1 := write_block (entry m1) r 0 1 (mcols m) (fun _ j => nth j v d) in
        Ok (Matrix (mrows m1) (mcols m1) (write_block f1 (r + 1) 0 (mrows m - r) (mcols m) down))
      else UB.

  (** InsertCol, LinearAlgebra.hpp:296-314 *)
  Definition insert_col junk m (v : list T) (d : T) (col : Z) : outcome (matrix T) :=
    if ((col <? 0) || (Z.of_nat (mcols m) <? col))%Z then Throw LinearAlgebraErr
    else
      let c := Z.to_nat col in
      let right := fun i j => entry m i (c + j) in
      let m1 := conservative_resize junk m (mrows m) (mcols m + 1) in
      if length v =? mrows m then
        let f1 := write_block (entry m1) 0 c (mrows m) 1 (fun i _ => nth i v d) in
        Ok (Matrix (mrows m1) (mcols m1) (write_block f1 0 (c + 1) (mrows m) (mcols m - c) right))
      else UB.

  (** SwapRows, LinearAlgebra.hpp:376-397 *)
  Definition swap_rows m (r1 r2 : Z) : outcome (matrix T) :=
    if ((r1 <? 0) || (Z.of_nat (mrows m) - 1 <? r1) || (r2 <? 0) || (Z.of_nat (mrows m) - 1 <? r2))%Z then Throw LinearAlgebraErr
    else
      let a := Z.to_nat r1 in let b := Z.to_nat r2 in
      if a =? b then Ok m
      else Ok (Matrix (mrows m) (mcols m)
        (fold_left (fun f j => let x := f a j in put_entry (put_entry f a j (f b j)) b j x) (seq 0 (mcols m)) (entry m))).

  (** SwapColumns, LinearAlgebra.hpp:347-368 *)
  Definition swap_cols m (c1 c2 : Z) : outcome (matrix T) :=
    if ((c1 <? 0) || (Z.of_nat (mcols m) - 1 <? c1) || (c2 <? 0) || (Z.of_nat (mcols m) - 1 <? c2))%Z then Throw LinearAlgebraErr
    else
      let a := Z.to_nat c1 in let b := Z.to_nat c2 in
      if a =? b then Ok m
      else Ok (Matrix (mrows m) (mcols m)
        (fold_left (fun f i => let x := f i a in put_entry (put_entry f i a (f i b)) i b x) (seq 0 (mrows m)) (entry m))).

  (** ResizeAndFillMatrix, LinearAlgebra.hpp:66-109: the new matrix and whether it was resized.  bottomRows / topRightCorner of more
      rows than there are is an Eigen assertion (undefined in release builds: it writes outside the matrix). *)
  Definition resize_and_fill junk m (rows cols : Z) (preserve : bool) (fill : T) : outcome (matrix T * bool) :=
    if ((rows <? 0) || (cols <? 0))%Z then Throw LinearAlgebraErr
    else
      let r := Z.to_nat rows in let c := Z.to_nat cols in
      let resize := negb (r =? mrows m) || negb (c =? mcols m) in
      if negb resize && negb preserve then Ok (Matrix (mrows m) (mcols m) (fun _ _ => fill), resize)
      else if resize && negb preserve then Ok (Matrix r c (fun _ _ => fill), resize)
      else if resize && preserve then
        let m1 := conservative_resize junk m r c in
        let f1 := if mrows m <? r then write_block (entry m1) (mrows m) 0 (r - mrows m) c (fun _ _ => fill) else entry m1 in
        if mcols m <? c then
          if r <? mrows m then UB
          else Ok (Matrix r c (write_block f1 0 (mcols m) (mrows m) (c - mcols m) (fun _ _ => fill)), resize)
        else Ok (Matrix r c f1, resize)
      else Ok (m, resize).

  (** MatrixRowToSTLVector / MatrixColToSTLVector, LinearAlgebra.hpp:455-487 *)
  Definition row_to_vector m (row : Z) : outcome (list T) :=
    if ((row <? 0) || (Z.of_nat (mrows m) - 1 <? row))%Z then Throw LinearAlgebraErr
    else Ok (map (entry m (Z.to_nat row)) (seq 0 (mcols m))).
  Definition col_to_vector m (col : Z) : outcome (list T) :=
    if ((col <? 0) || (Z.of_nat (mcols m) - 1 <? col))%Z then Throw LinearAlgebraErr
    else Ok (map (fun i => entry m i (Z.to_nat col)) (seq 0 (mrows m))).
End Matrix.

(** *** Sorting and reordering *)
Section Sorting.
  Context {T : Type}.
  Variable ltb : T -> T -> bool.

  (** SortedIndices (Operations.hpp:187-195) and SortRow (LinearAlgebra.hpp:404-413).  std::stable_sort is modelled by stable
      insertion: its result is determined by the comparison as long as that is a strict weak order. *)
  Fixpoint insert_index (v : list T) (i : nat) (l : list nat) : outcome (list nat) :=
    match l with
    | [] => Ok [i]
    | j :: t =>
        let! a := vget v i in
        let! b := vget v j in
        if ltb b a then let! t' := insert_index v i t in Ok (j :: t') else Ok (i :: l)
    end.
  Fixpoint sort_from (v : list T) (l : list nat) : outcome (list nat) :=
    match l with
    | [] => Ok []
    | i :: t => let! t' := sort_from v t in insert_index v i t'
    end.
  Definition sorted_indices (v : list T) : outcome (list nat) := sort_from v (seq 0 (length v)).

  (** ReorderVector, Operations.hpp:202-212 *)
  Fixpoint reorder_vector (v : list T) (order : list nat) : outcome (list T) :=
    match order with
    | [] => Ok []
    | i :: t => let! a := vget v i in let! r := reorder_vector v t in Ok (a :: r)
    end.

  (** Inner loop of ReorderRow, LinearAlgebra.hpp:439-445.  [fuel] bounds the number of iterations; [None] means it ran out. *)
  Fixpoint follow_cycle (fuel : nat) (order : list nat) (i last_j j : nat) (row : list T) (swapped : list bool)
    : option (outcome (list T * list bool)) :=
    if i =? j then Some (Ok (row, swapped))
    else match fuel with
         | O => None
         | S fuel' =>
             match nth_error row last_j, nth_error row j, nth_error order j with
             | Some x, Some y, Some j' =>
                 follow_cycle fuel' order i j j' (set_nth j x (set_nth last_j y row)) (set_nth j true swapped)
             | _, _, _ => Some UB
             end
         end.

  (** ReorderRow, LinearAlgebra.hpp:420-447 *)
  Fixpoint reorder_loop (fuel : nat) (order : list nat) (is : list nat) (row : list T) (swapped : list bool)
    : option (outcome (list T)) :=
    match is with
    | [] => Some (Ok row)
    | i :: t =>
        match nth_error swapped i, nth_error order i with
        | Some true, _ => reorder_loop fuel order t row swapped
        | Some false, Some j =>
            match follow_cycle fuel order i i j row (set_nth i true swapped) with
            | Some (Ok (row', swapped')) => reorder_loop fuel order t row' swapped'
            | Some (Throw e) => Some (Throw e)
            | Some UB => Some UB
            | None => None
            end
        | _, _ => Some UB
        end
    end.
  Definition reorder_row (fuel : nat) (row : list T) (order : list nat) : option (outcome (list T)) :=
    if negb (length order =? length row) then Some (Throw LinearAlgebraErr)
    else reorder_loop fuel order (seq 0 (length row)) row (repeat false (length row)).
End Sorting.
