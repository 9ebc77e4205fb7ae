(** Common vocabulary of the model: outcomes of C++ code, vectors, undefined behaviour. *)
From Coq Require Export List Arith ZArith Lia Bool.
Export ListNotations.

(** Exceptions the library throws, by class.  Models /repo/libs/MeshKernel/include/MeshKernel/Exceptions.hpp:44-362
    (class hierarchy and exit codes); [StdErr] stands for every std:: exception
    (/repo/libs/MeshKernelApi/src/MeshKernel.cpp:138-142). Messages are not modelled. *)
Inductive exn :=
| MeshKernelErr | NotImplementedErr | AlgorithmErr | ConstraintErr | MeshGeometryErr | LinearAlgebraErr | RangeErr
| StdErr.

(** Outcome of running a piece of C++: a value, an exception, or undefined behaviour
    (for instance std::vector::operator[] out of range). *)
Inductive outcome (A : Type) :=
| Ok (a : A)
| Throw (e : exn)
| UB.
Arguments Ok {A} a.
Arguments Throw {A} e.
Arguments UB {A}.

Definition bind {A B} (x : outcome A) (f : A -> outcome B) : outcome B :=
  match x with Ok a => f a | Throw e => Throw e | UB => UB end.

Notation "'let!' x ':=' e 'in' f" := (bind e (fun x => f)) (at level 200, x pattern, e at level 100, f at level 200).

Definition is_ok {A} (x : outcome A) : Prop := exists a, x = Ok a.
Definition is_ub {A} (x : outcome A) : bool := match x with UB => true | _ => false end.

(** std::vector::operator[] for reading: out of range is undefined behaviour. *)
Definition vget {A} (l : list A) (i : nat) : outcome A :=
  match nth_error l i with Some a => Ok a | None => UB end.

(** Replacement of one element; total, out of range leaves the list alone (only used under a bounds check). *)
Fixpoint set_nth {A} (i : nat) (a : A) (l : list A) : list A :=
  match l, i with
  | [], _ => []
  | _ :: t, O => a :: t
  | h :: t, S i' => h :: set_nth i' a t
  end.

(** std::vector::operator[] for writing: out of range is undefined behaviour. *)
Definition vset {A} (i : nat) (a : A) (l : list A) : outcome (list A) :=
  if i <? length l then Ok (set_nth i a l) else UB.

(** std::vector::resize: truncates or appends copies of the default value. *)
Definition vresize {A} (n : nat) (d : A) (l : list A) : list A :=
  firstn n l ++ repeat d (n - length l).

Fixpoint fold_out {A B} (f : A -> B -> outcome A) (l : list B) (a : A) : outcome A :=
  match l with
  | [] => Ok a
  | b :: t => let! a' := f a b in fold_out f t a'
  end.
