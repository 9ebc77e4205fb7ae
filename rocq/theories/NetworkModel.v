(** One-dimensional networks and the meshes made from them.
    Source: /repo/libs/MeshKernel/src/Network1D.cpp ("Network1D.cpp"), Mesh1D.cpp ("Mesh1D.cpp"), Operations.cpp ("Operations.cpp").

    Simplifications.  Chainages, lengths and coordinates are exact rational numbers here; the distance between two points is a parameter.
    A division by a zero length gives no number ([None]); in C++ it gives NaN or infinity.  The counter of new segments does not overflow. *)
From Coq Require Import QArith Qround.
From Verif Require Import Base FloatModel UndoModel MeshModel.
Local Open Scope nat_scope.

Definition qpoint : Type := Q * Q.
Definition qltb (a b : Q) : bool := negb (Qle_bool b a).

(** std::sort on chainages *)
Fixpoint qinsert (a : Q) (l : list Q) : list Q :=
  match l with [] => [a] | b :: t => if Qle_bool a b then a :: l else b :: qinsert a t end.
Fixpoint qsort (l : list Q) : list Q := match l with [] => [] | a :: t => qinsert a (qsort t) end.

(** *** Chainages *)
Section Lengths.
  Variable dist : qpoint -> qpoint -> Q.
  (** ComputePolyLineEdgesLengths, Operations.cpp:1574-1591 *)
  Fixpoint edge_lengths (pl : list qpoint) : list Q :=
    match pl with
    | a :: (b :: _) as t => dist a b :: edge_lengths t
    | _ => []
    end.
  (** Operations.cpp:1603-1607: the running sums *)
  Fixpoint running (s : Q) (lens : list Q) : list Q :=
    match lens with [] => [s] | l :: t => s :: running (s + l)%Q t end.
  (** ComputePolyLineNodalChainages, Operations.cpp:1593-1609 *)
  Definition nodal_chainages (pl : list qpoint) : list Q :=
    match edge_lengths pl with [] => [] | lens => running 0 lens end.

  (** Network1D: m_polyLines and m_chainages, Network1D.hpp:86-87 *)
  Record network := Network { n_lines : list (list qpoint); n_chainages : list (list Q) }.

  (** Network1D.cpp:42-47: the two chainages of one polyline; front and back of an empty vector are undefined *)
  Definition end_chainages (pl : list qpoint) : outcome (list Q) :=
    match nodal_chainages pl with [] => UB | a :: t => Ok [a; last t a] end.
  Fixpoint map_out {A B} (f : A -> outcome B) (l : list A) : outcome (list B) :=
    match l with [] => Ok [] | a :: t => let! b := f a in let! r := map_out f t in Ok (b :: r) end.
  (** Network1D::Network1D, Network1D.cpp:36-48 *)
  Definition new_network (lines : list (list qpoint)) : outcome network :=
    let! ch := map_out end_chainages lines in Ok (Network lines ch).

  (** vector::back() = x *)
  Definition set_back (x : Q) (l : list Q) : list Q := removelast l ++ [x].

  (** Network1D.cpp:77-98: one fixed chainage.  State: chainages, previousChainage, previousChainageIsAFixedPoint. *)
  Definition fixed_step (start stop min_size offset : Q) (st : list Q * Q * bool) (fixed : Q) : list Q * Q * bool :=
    let '(ch, prev, isfixed) := st in
    let before := (fixed - offset)%Q in
    let '(ch, prev, isfixed) :=
      if Qle_bool min_size (before - prev) && qltb start before then (ch ++ [before], before, true)
      else if isfixed then let mid := ((before + prev) * (1 # 2))%Q in (set_back mid ch, mid, isfixed)
      else (ch, prev, isfixed) in
    let after := (fixed + offset)%Q in
    if Qle_bool min_size (after - prev) && qltb after stop then (ch ++ [after], after, true)
    else (ch, prev, isfixed).
  (** Network1D.cpp:60-99: one polyline.  [near] is IsEqual. *)
  Definition fixed_line (near : Q -> Q -> bool) (min_size offset : Q) (ch fixed : list Q) : list Q :=
    match fixed, ch with
    | f0 :: _, start :: stop :: _ =>
        fst (fst (fold_left (fixed_step start stop min_size offset) fixed (ch, start, near start f0)))
    | _, _ => ch
    end.
  Fixpoint map2 {A B C} (f : A -> B -> C) (l : list A) (r : list B) : list C :=
    match l, r with a :: t, b :: u => f a b :: map2 f t u | _, _ => [] end.
  (** ComputeFixedChainages, Network1D.cpp:50-100 *)
  Definition compute_fixed (near : Q -> Q -> bool) (n : network) (fixed : list (list Q)) (min_size offset : Q) : outcome network :=
    if length (n_lines n) =? length fixed then Ok (Network (n_lines n) (map2 (fixed_line near min_size offset) (n_chainages n) fixed))
    else Throw StdErr.

  (** Network1D.cpp:113-121: new chainages between [a] and [b].  Conversion of a negative number or infinity to UInt is undefined. *)
  Definition interval_points (offset a b : Q) : outcome (list Q) :=
    let len := (b - a)%Q in
    if qltb len offset then Ok []
    else if Qeq_bool offset 0 then UB
    else
      let n := Qceiling (len / offset) in
      if (n <? 0)%Z then UB
      else Ok (map (fun j => a + inject_Z (Z.of_nat j) * (len / inject_Z n))%Q (seq 1 (Z.to_nat n - 1))).
  (** Network1D.cpp:111-122 *)
  Fixpoint all_intervals (offset : Q) (l : list Q) : outcome (list Q) :=
    match l with
    | a :: (b :: _) as t => let! p := interval_points offset a b in let! r := all_intervals offset t in Ok (p ++ r)
    | _ => Ok []
    end.
  (** Network1D.cpp:107-125: one polyline *)
  Definition offset_line (offset : Q) (ch : list Q) : outcome (list Q) :=
    let s := qsort ch in let! r := all_intervals offset s in Ok (s ++ r).
  (** ComputeOffsettedChainages, Network1D.cpp:102-127 *)
  Definition compute_offset (n : network) (offset : Q) : outcome network :=
    let! ch := map_out (offset_line offset) (n_chainages n) in Ok (Network (n_lines n) ch).

  (** *** Discretisation *)
  (** Operations.cpp:1633: the point at a distance from the start of a segment *)
  Definition along (a b : qpoint) (d len : Q) : option qpoint :=
    if Qeq_bool len 0 then None
    else Some (fst a + (fst b - fst a) * d / len, snd a + (snd b - snd a) * d / len)%Q.
  (** Operations.cpp:1625-1636: one chainage.  State: curentNodalIndex, discretization. *)
  Definition disc_step (pl : list qpoint) (lens nodal : list Q) (st : nat * list (option qpoint)) (c : Q) : outcome (nat * list (option qpoint)) :=
    let (cur, acc) := st in
    let! next := vget nodal (cur + 1) in
    let cur := if qltb next c then S cur else cur in
    let! from := vget nodal cur in
    let! a := vget pl cur in
    let! b := vget pl (cur + 1) in
    let! len := vget lens cur in
    Ok (cur, acc ++ [along a b (c - from) len]).
  (** ComputePolyLineDiscretization, Operations.cpp:1611-1639; also returns the chainages, which it sorts in place *)
  Definition discretize (pl : list qpoint) (ch : list Q) : outcome (list Q * list (option qpoint)) :=
    if length pl <? 2 then Throw StdErr
    else
      let s := qsort ch in
      let! r := fold_out (disc_step pl (edge_lengths pl) (nodal_chainages pl)) s (0, []) in
      Ok (s, snd r).
  Fixpoint discretize_all (lines : list (list qpoint)) (ch : list (list Q)) : outcome (list (list Q) * list (list (option qpoint))) :=
    match lines, ch with
    | pl :: t, c :: u =>
        let! (s, d) := discretize pl c in
        let! (ss, ds) := discretize_all t u in
        Ok (s :: ss, d :: ds)
    | [], _ => Ok ([], [])
    | _ :: _, [] => UB
    end.
  (** ComputeDiscretizationsFromChainages, Network1D.cpp:129-137 *)
  Definition discretizations (n : network) : outcome (network * list (list (option qpoint))) :=
    let! (ch, ds) := discretize_all (n_lines n) (n_chainages n) in
    Ok (Network (n_lines n) ch, ds).
End Lengths.

(** *** The mesh of a network *)

(** Mesh1D.cpp:51-67: one discretisation.  State: nodes, edges, numNodes. *)
Definition add_polyline {A} (acc : list A * list (nat * nat) * nat) (d : list A) : list A * list (nat * nat) * nat :=
  let '(nodes, edges, start) := acc in
  match d with
  | [] => acc
  | _ =>
      let nodes := nodes ++ d in
      (nodes, edges ++ map (fun i => (i, S i)) (seq start (length nodes - 1 - start)), start + length nodes)
  end.
(** Mesh1D.cpp:44-72 *)
Definition network_lists {A} (discs : list (list A)) : list A * list (nat * nat) := fst (fold_left add_polyline discs ([], [], 0)).
(** Mesh1D::Mesh1D(Network1D&, double), Mesh1D.cpp:42-75: up to DeleteInvalidNodesAndEdges *)
Definition mesh1d_of (discs : list (list point)) (p : projection) : outcome mesh :=
  let (nodes, edges) := network_lists discs in
  construct (map (fun e => (Some (fst e), Some (snd e))) edges) nodes p.
