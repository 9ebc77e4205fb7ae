(** Curvilinear grids: storage with hidden margin lines, indices, edges, stray nodes, boundaries, edits and their undo actions.
    Source: /repo/libs/MeshKernel/include/MeshKernel/CurvilinearGrid/CurvilinearGrid.hpp (CG.hpp below) and
    src/CurvilinearGrid/CurvilinearGrid.cpp (CG.cpp), CurvilinearGridBlock.cpp, CurvilinearGridDelete*.cpp,
    CurvilinearGrid*Refinement.cpp and UndoActions/*.
    Not modelled: the search trees and their update flags (the node or edge a search finds is an argument), m_edges, messages.
    UInt subtraction is truncated subtraction of [nat]: it differs from the code only for grids with fewer than two visible lines. *)
From Verif Require Import Base FloatModel UtilModel UndoModel ActionModel.

(** NodeType, CurvilinearGridUtilities.hpp:35-48 *)
Inductive node_type :=
| BottomLeft | UpperLeft | BottomRight | UpperRight | LeftType | RightType | Bottom | Up | InternalValid | Invalid.

Definition node_type_eqb (a b : node_type) : bool :=
  match a, b with
  | BottomLeft, BottomLeft | UpperLeft, UpperLeft | BottomRight, BottomRight | UpperRight, UpperRight | LeftType, LeftType
  | RightType, RightType | Bottom, Bottom | Up, Up | InternalValid, InternalValid | Invalid, Invalid => true
  | _, _ => false
  end.

Inductive projection := Cartesian | Spherical | SphericalAccurate.

(** CurvilinearGridNodeIndices with valid components (CurvilinearGridNodeIndices.hpp): (n, m). *)
Definition gindex := (nat * nat)%type.

(** CurvilinearGrid, members at CG.hpp:502-519 *)
Record grid := Grid {
  proj : projection;             (* m_projection *)
  gnodes : matrix point;         (* m_gridNodes *)
  fmask : matrix bool;           (* m_gridFacesMask *)
  ntypes : matrix node_type;     (* m_gridNodesTypes *)
  gindices : list gindex;        (* m_gridIndices *)
  start_n : nat; start_m : nat;  (* m_startOffset *)
  end_n : nat; end_m : nat       (* m_endOffset *)
}.

Definition set_gnodes g x := Grid (proj g) x (fmask g) (ntypes g) (gindices g) (start_n g) (start_m g) (end_n g) (end_m g).
Definition set_fmask g x := Grid (proj g) (gnodes g) x (ntypes g) (gindices g) (start_n g) (start_m g) (end_n g) (end_m g).
Definition set_ntypes g x := Grid (proj g) (gnodes g) (fmask g) x (gindices g) (start_n g) (start_m g) (end_n g) (end_m g).
Definition set_gindices g x := Grid (proj g) (gnodes g) (fmask g) (ntypes g) x (start_n g) (start_m g) (end_n g) (end_m g).
Definition set_offsets g a b c d := Grid (proj g) (gnodes g) (fmask g) (ntypes g) (gindices g) a b c d.

(** FullNumN, FullNumM, NumN, NumM, CG.hpp:382-425 *)
Definition full_n g := mrows (gnodes g).
Definition full_m g := mcols (gnodes g).
Definition num_n g := mrows (gnodes g) - start_n g - end_n g.
Definition num_m g := mcols (gnodes g) - start_m g - end_m g.

(** m_matrix(n + m_startOffset.m_n, m + m_startOffset.m_m) behind the two bound checks that GetNode (CG.hpp:533-566), GetNodeType
    (CG.hpp:155-187) and IsFaceMaskValid (CG.hpp:200-232) make: the checks compare with the size of the whole matrix, the access adds
    the offset. *)
Definition mat_get {T} g (x : matrix T) (n m : nat) : outcome T :=
  if mrows x <=? n then Throw ConstraintErr
  else if mcols x <=? m then Throw ConstraintErr
  else if (n + start_n g <? mrows x) && (m + start_m g <? mcols x) then Ok (entry x (n + start_n g) (m + start_m g))
  else UB.
Definition mat_set {T} g (x : matrix T) (n m : nat) (v : T) : outcome (matrix T) :=
  if mrows x <=? n then Throw ConstraintErr
  else if mcols x <=? m then Throw ConstraintErr
  else if (n + start_n g <? mrows x) && (m + start_m g <? mcols x)
  then Ok (Matrix (mrows x) (mcols x) (put_entry (entry x) (n + start_n g) (m + start_m g) v))
  else UB.

Definition get_node g n m : outcome point := mat_get g (gnodes g) n m.
Definition set_node g n m p : outcome grid := let! x := mat_set g (gnodes g) n m p in Ok (set_gnodes g x).
Definition get_type g n m : outcome node_type := mat_get g (ntypes g) n m.
Definition set_type g n m t : outcome grid := let! x := mat_set g (ntypes g) n m t in Ok (set_ntypes g x).
Definition get_mask g n m : outcome bool := mat_get g (fmask g) n m.
Definition set_mask g n m b : outcome grid := let! x := mat_set g (fmask g) n m b in Ok (set_fmask g x).

(** GetNode(n, m).IsValid() *)
Definition node_valid g n m : outcome bool := let! p := get_node g n m in Ok (is_valid p).

(** The loops "for n in [n0, n1) for m in [m0, m1)". *)
Definition range (a b : nat) : list nat := seq a (b - a).
Definition pairs (n0 n1 m0 m1 : nat) : list gindex := list_prod (range n0 n1) (range m0 m1).

(** result[ind] = ...; ind++ on a vector sized beforehand *)
Definition write_next {A} (acc : list A * nat) (a : A) : outcome (list A * nat) :=
  let! v := vset (snd acc) a (fst acc) in Ok (v, S (snd acc)).

(** *** Node indices *)

(** GetCurvilinearGridNodeIndices, CG.hpp:326-336 *)
Definition node_indices g (i : nat) : outcome gindex :=
  if num_m g * num_n g <=? i then Throw AlgorithmErr else Ok (i / num_m g, i mod num_m g).

(** GetNodeIndex, CG.hpp:340-348; [None] is an index with a missing component *)
Definition node_index g (ij : option gindex) : outcome nat :=
  match ij with None => Throw AlgorithmErr | Some (n, m) => Ok (m + n * num_m g) end.

(** Node(index), CG.hpp:318-322 *)
Definition node_at g (i : nat) : outcome point := let! ij := node_indices g i in get_node g (fst ij) (snd ij).

(** ComputeNodeIndices, CG.cpp:1295-1312.  The initial value of the vector (missing indices) never survives; it is (0, 0) here. *)
Definition compute_node_indices g : outcome (list gindex) :=
  let! r := fold_out (fun acc nm => write_next acc nm) (pairs 0 (num_n g) 0 (num_m g))
                     (repeat (0, 0) (num_n g * num_m g), 0) in
  Ok (fst r).

(** IsValid, CG.hpp:118-121 *)
Definition grid_valid g : bool := (1 <? num_m g) && (1 <? num_n g).

(** ComputeNodes, CG.cpp:1219-1238 *)
Definition compute_nodes g : outcome (list point) :=
  if negb (grid_valid g) then Throw AlgorithmErr
  else
    let! r := fold_out (fun acc nm => let! p := get_node g (fst nm) (snd nm) in write_next acc p)
                       (pairs 0 (num_n g) 0 (num_m g)) (repeat missing_point (num_n g * num_m g), 0) in
    Ok (fst r).

(** ComputeEdges, CG.cpp:1240-1275 *)
Definition compute_edges g : outcome (list (nat * nat)) :=
  if negb (grid_valid g) then Throw AlgorithmErr
  else
    let nm := num_m g in
    let nn := num_n g in
    let! r := fold_out (fun acc ij => write_next acc (nm * fst ij + snd ij, nm * (fst ij + 1) + snd ij))
                       (pairs 0 (nn - 1) 0 nm) (repeat (0, 0) (nm * (nn - 1) + (nm - 1) * nn), 0) in
    let! r := fold_out (fun acc ij => write_next acc (nm * fst ij + snd ij, nm * fst ij + snd ij + 1)) (pairs 0 nn 0 (nm - 1)) r in
    Ok (fst r).

(** GetNumEdges, CG.hpp:311-312, and ComputeEdgeIndices, CG.cpp:1314-1338 *)
Definition num_edges g := num_m g * (num_n g - 1) + (num_m g - 1) * num_n g.
Definition compute_edge_indices g : outcome (list (gindex * gindex)) :=
  let! r := fold_out (fun acc ij => write_next acc ((fst ij, snd ij), (fst ij + 1, snd ij)))
                     (pairs 0 (num_n g - 1) 0 (num_m g)) (repeat ((0, 0), (0, 0)) (num_edges g), 0) in
  let! r := fold_out (fun acc ij => write_next acc ((fst ij, snd ij), (fst ij, snd ij + 1)))
                     (pairs 0 (num_n g) 0 (num_m g - 1)) r in
  Ok (fst r).

(** *** Construction, copies *)

(** SetGridNodes, CG.cpp:137-151: the offsets stay as they are *)
Definition set_grid_nodes g (x : matrix point) : outcome grid :=
  if (mrows x <=? 1) || (mcols x <=? 1) then Throw StdErr
  else
    let g := set_gnodes g x in
    let! l := compute_node_indices g in
    Ok (set_gindices g l).

(** CurvilinearGrid(Projection), CG.cpp:60-65 *)
Definition empty_matrix {T} (d : T) : matrix T := Matrix 0 0 (fun _ _ => d).
Definition empty_grid (p : projection) : grid :=
  Grid p (empty_matrix missing_point) (empty_matrix false) (empty_matrix Invalid) [] 0 0 0 0.

(** CurvilinearGrid(matrix, Projection), CG.cpp:67-81 *)
Definition new_grid (x : matrix point) (p : projection) : outcome grid := set_grid_nodes (empty_grid p) x.

(** CurvilinearGrid(const CurvilinearGrid&), CG.cpp:41-50 *)
Definition copy_ctor g : grid := Grid Cartesian (gnodes g) (fmask g) (ntypes g) (gindices g) 0 0 0 0.

(** operator=(const CurvilinearGrid&), CG.cpp:106-135, for different objects *)
Definition copy_assign (target src : grid) : outcome grid :=
  let g := Grid (proj src) (gnodes src) (fmask src) (ntypes src) (gindices src) (start_n src) (start_m src) (end_n src) (end_m src) in
  set_grid_nodes g (gnodes g).

(** *** Blocks from two corners *)

(** UInt comparison where [None] is the missing value, the largest UInt *)
Definition omin (a b : option nat) : option nat :=
  match a, b with Some x, Some y => Some (min x y) | None, _ => b | _, None => a end.
Definition omax (a b : option nat) : option nat :=
  match a, b with Some x, Some y => Some (max x y) | _, _ => None end.

(** ComputeBlockFromCornerPoints(indices), CG.cpp:346-368 *)
Definition block_from_corners g (a b : option nat * option nat) : outcome (gindex * gindex) :=
  match omin (fst a) (fst b), omin (snd a) (snd b), omax (fst a) (fst b), omax (snd a) (snd b) with
  | Some ln, Some lm, Some un, Some um =>
      if (num_m g <=? lm) || (num_n g <=? ln) then Throw ConstraintErr
      else if (num_m g <=? um) || (num_n g <=? un) then Throw ConstraintErr
      else Ok ((ln, lm), (un, um))
  | _, _, _, _ => Throw ConstraintErr
  end.

(** *** Complete cells and stray nodes *)

(** AreFaceNodesValid, CG.cpp:328-334, with its short circuits *)
Definition face_nodes_valid g n m : outcome bool :=
  let! a := node_valid g n m in
  if a then
    let! b := node_valid g n (m + 1) in
    if b then
      let! c := node_valid g (n + 1) m in
      if c then node_valid g (n + 1) (m + 1) else Ok false
    else Ok false
  else Ok false.

(** ComputeGridFacesMask, CG.cpp:370-389 *)
Definition compute_faces_mask g : outcome grid :=
  let! (x, _) := resize_and_fill (fun _ _ => false) (fmask g) (Z.of_nat (full_n g) - 1) (Z.of_nat (full_m g) - 1) false false in
  fold_out (fun g nm =>
              let! v := face_nodes_valid g (fst nm) (snd nm) in
              if v then set_mask g (fst nm) (snd nm) true else Ok g)
           (pairs 0 (num_n g - 1) 0 (num_m g - 1)) (set_fmask g x).

(** validNodeMask of RemoveInvalidNodes, CG.cpp:402-415: a vector of vectors, here with the rows one after the other *)
Definition mark (w : nat) (mask : list bool) (n m : nat) : outcome (list bool) :=
  if m <? w then vset (n * w + m) true mask else UB.
Definition valid_node_mask g : outcome (list bool) :=
  fold_out (fun mask nm =>
              let! v := get_mask g (fst nm) (snd nm) in
              if v then
                let! mask := mark (num_m g) mask (fst nm) (snd nm) in
                let! mask := mark (num_m g) mask (fst nm) (snd nm + 1) in
                let! mask := mark (num_m g) mask (fst nm + 1) (snd nm) in
                mark (num_m g) mask (fst nm + 1) (snd nm + 1)
              else Ok mask)
           (pairs 0 (num_n g - 1) 0 (num_m g - 1)) (repeat false (num_n g * num_m g)).

(** The last loop of RemoveInvalidNodes, CG.cpp:417-428 *)
Definition remove_unmarked (mask : list bool) (gr : grid * bool) (nm : gindex) : outcome (grid * bool) :=
  let! keep := vget mask (fst nm * num_m (fst gr) + snd nm) in
  if keep then Ok gr
  else
    let! v := node_valid (fst gr) (fst nm) (snd nm) in
    if v then let! g := set_node (fst gr) (fst nm) (snd nm) missing_point in Ok (g, true) else Ok gr.

(** RemoveInvalidNodes, CG.cpp:391-431.  [fuel] bounds the recursion; running out is reported as undefined behaviour. *)
Fixpoint remove_invalid (fuel : nat) (to_remove : bool) g : outcome grid :=
  if negb to_remove then Ok g
  else
    match fuel with
    | 0 => UB
    | S fuel =>
        let! g := compute_faces_mask g in
        let! mask := valid_node_mask g in
        let! (g, again) := fold_out (remove_unmarked mask) (pairs 0 (num_n g) 0 (num_m g)) (g, false) in
        remove_invalid fuel again g
    end.

(** *** Node types *)

(** The classification of one node in ComputeGridNodeTypes, CG.cpp:441-649; [None]: the entry keeps the type Invalid. *)
Definition classify g (n m : nat) : outcome (option node_type) :=
  let! v := node_valid g n m in
  if negb v then Ok None
  else if m =? 0 then
    if n =? 0 then Ok (Some BottomLeft)
    else if n =? num_n g - 1 then Ok (Some BottomRight)
    else
      let! a := node_valid g (n - 1) m in
      if negb a then Ok (Some BottomLeft)
      else
        let! b := node_valid g (n + 1) m in
        Ok (Some (if negb b then BottomRight else Bottom))
  else if m =? num_m g - 1 then
    if n =? 0 then Ok (Some UpperLeft)
    else if n =? num_n g - 1 then Ok (Some UpperRight)
    else
      let! a := node_valid g (n - 1) m in
      if negb a then Ok (Some UpperLeft)
      else
        let! b := node_valid g (n + 1) m in
        Ok (Some (if negb b then UpperRight else Up))
  else if n =? 0 then
    let! a := node_valid g n (m - 1) in
    if negb a then Ok (Some BottomLeft)
    else
      let! b := node_valid g n (m + 1) in
      Ok (Some (if negb b then UpperRight else LeftType))
  else if n =? num_n g - 1 then
    let! a := node_valid g n (m - 1) in
    if negb a then Ok (Some BottomRight)
    else
      let! b := node_valid g n (m + 1) in
      Ok (Some (if negb b then UpperRight else RightType))
  else
    let! br := get_mask g n (m - 1) in
    let! bl := get_mask g (n - 1) (m - 1) in
    let! tr := get_mask g n m in
    let! tl := get_mask g (n - 1) m in
    Ok (match tr, tl, bl, br with
        | true, true, true, true => Some InternalValid
        | false, true, true, true => Some BottomLeft
        | true, false, true, true => Some BottomRight
        | true, true, false, true => Some UpperRight
        | true, true, true, false => Some UpperLeft
        | true, true, false, false => Some Bottom
        | true, false, false, true => Some LeftType
        | false, false, true, true => Some Up
        | false, true, true, false => Some RightType
        | true, false, false, false => Some BottomLeft
        | false, true, false, false => Some BottomRight
        | false, false, true, false => Some UpperRight
        | false, false, false, true => Some UpperLeft
        | _, _, _, _ => None
        end).

(** ComputeGridNodeTypes, CG.cpp:433-651 *)
Definition compute_node_types g : outcome grid :=
  let! g := remove_invalid 3 true g in
  let! (x, _) := resize_and_fill (fun _ _ => Invalid) (ntypes g) (Z.of_nat (full_n g)) (Z.of_nat (full_m g)) false Invalid in
  fold_out (fun g nm =>
              let! t := classify g (fst nm) (snd nm) in
              match t with Some t => set_type g (fst nm) (snd nm) t | None => Ok g end)
           (pairs 0 (num_n g) 0 (num_m g)) (set_ntypes g x).

(** *** Undo actions of grids, UndoActions/*.cpp and CG.cpp:1141-1217 *)
Inductive gleaf :=
| AddLine (sn sm en em : nat)                                             (* AddGridLineUndoAction *)
| ResetNode (n m : nat) (initial updated : point) (recompute : bool)      (* ResetCurvilinearNodeAction *)
| BlockOf (n0 m0 n1 m1 : nat) (block : matrix point)                      (* CurvilinearGridBlockUndoAction *)
| RefineOf (nodes : matrix point) (sn sm en em : nat).                    (* CurvilinearGridRefinementUndoAction *)

Definition reindex g : outcome grid := let! l := compute_node_indices g in Ok (set_gindices g l).

(** CurvilinearGridBlock::CopyFrom, CurvilinearGridBlock.cpp:14-26, on the block made at :5-12 *)
Definition block_copy g (n0 m0 n1 m1 : nat) : outcome (matrix point) :=
  fold_out (fun b rc =>
              let! p := get_node g (fst rc + n0) (snd rc + m0) in
              Ok (Matrix (mrows b) (mcols b) (put_entry (entry b) (fst rc) (snd rc) p)))
           (pairs 0 (n1 - n0) 0 (m1 - m0)) (Matrix (n1 - n0) (m1 - m0) (fun _ _ => missing_point)).

(** CurvilinearGridBlock::Swap, CurvilinearGridBlock.cpp:28-40 *)
Definition block_swap (n0 m0 n1 m1 : nat) (bg : matrix point * grid) : outcome (matrix point * grid) :=
  fold_out (fun bg rc =>
              let! p := get_node (snd bg) (fst rc + n0) (snd rc + m0) in
              let! g := set_node (snd bg) (fst rc + n0) (snd rc + m0) (entry (fst bg) (fst rc) (snd rc)) in
              Ok (Matrix (mrows (fst bg)) (mcols (fst bg)) (put_entry (entry (fst bg)) (fst rc) (snd rc) p), g))
           (pairs 0 (n1 - n0) 0 (m1 - m0)) bg.

Definition swap_block_action n0 m0 n1 m1 b g : outcome (gleaf * grid) :=
  let! (b, g) := block_swap n0 m0 n1 m1 (b, g) in
  let! g := compute_node_types g in
  Ok (BlockOf n0 m0 n1 m1 b, g).

Definition swap_refinement (x : matrix point) (sn sm en em : nat) g : outcome (gleaf * grid) :=
  let l := RefineOf (gnodes g) (start_n g) (start_m g) (end_n g) (end_m g) in
  let g := set_offsets (set_gnodes g x) sn sm en em in
  let! g := reindex g in
  let! g := compute_node_types g in
  Ok (l, g).

(** The four RestoreAction functions, CG.cpp:1141-1153, 1165-1171, 1181-1188, 1199-1207 *)
Definition grid_restore (l : gleaf) g : outcome (gleaf * grid) :=
  match l with
  | AddLine sn sm en em =>
      let! g := reindex (set_offsets g (start_n g + sn) (start_m g + sm) (end_n g + en) (end_m g + em)) in
      let! g := compute_node_types g in
      Ok (l, g)
  | BlockOf n0 m0 n1 m1 b => swap_block_action n0 m0 n1 m1 b g
  | RefineOf x sn sm en em => swap_refinement x sn sm en em g
  | ResetNode n m initial updated recompute =>
      let! g := set_node g n m initial in
      let! g := (if recompute then compute_node_types g else Ok g) in
      Ok (l, g)
  end.

(** The four CommitAction functions, CG.cpp:1155-1163, 1173-1179, 1190-1197, 1209-1217.  Offsets are subtracted (UInt): below zero they
    would wrap around, which is reported as undefined behaviour. *)
Definition grid_commit (l : gleaf) g : outcome (gleaf * grid) :=
  match l with
  | AddLine sn sm en em =>
      if (sn <=? start_n g) && (sm <=? start_m g) && (en <=? end_n g) && (em <=? end_m g) then
        let! g := reindex (set_offsets g (start_n g - sn) (start_m g - sm) (end_n g - en) (end_m g - em)) in
        let! g := compute_node_types g in
        Ok (l, g)
      else UB
  | BlockOf n0 m0 n1 m1 b => swap_block_action n0 m0 n1 m1 b g
  | RefineOf x sn sm en em => swap_refinement x sn sm en em g
  | ResetNode n m initial updated recompute =>
      let! g := set_node g n m updated in
      let! g := (if recompute then compute_node_types g else Ok g) in
      Ok (l, g)
  end.

Definition gact := act gleaf.
Definition undo_grid (a : gact) g : outcome (gact * grid) := restore_act grid_restore a g.
Definition redo_grid (a : gact) g : outcome (gact * grid) := commit_act grid_commit a g.

(** *** Edits *)

(** MoveNode(indices), CG.cpp:1066-1080 *)
Definition move_node g (n m : nat) (p : point) : outcome (grid * gact) :=
  let! old := get_node g n m in
  let! g := set_node g n m p in
  Ok (g, Leaf Committed (ResetNode n m old p false)).

(** DeleteNode, CG.cpp:1042-1064; [found] is the index the search returns *)
Definition delete_node g (found : nat) : outcome (grid * gact) :=
  let! nm := vget (gindices g) found in
  let! old := get_node g (fst nm) (snd nm) in
  let! g := set_node g (fst nm) (snd nm) missing_point in
  let! g := compute_node_types g in
  let! g := reindex g in
  Ok (g, Leaf Committed (ResetNode (fst nm) (snd nm) old missing_point true)).

(** for ... m_grid.GetNode(n, m).SetInvalid() *)
Definition invalidate g (l : list gindex) : outcome grid :=
  fold_out (fun g nm => set_node g (fst nm) (snd nm) missing_point) l g.

(** CurvilinearGridDeleteInterior::Compute, CurvilinearGridDeleteInterior.cpp:42-61 *)
Definition delete_interior g (ll ur : gindex) : outcome (grid * gact) :=
  let! b := block_copy g (fst ll) (snd ll) (fst ur) (snd ur) in
  let! g := invalidate g (pairs (fst ll + 1) (fst ur) (snd ll + 1) (snd ur)) in
  Ok (g, Leaf Committed (BlockOf (fst ll) (snd ll) (fst ur) (snd ur) b)).

(** CurvilinearGridDeleteExterior::Compute, CurvilinearGridDeleteExterior.cpp:43-97 *)
Definition delete_exterior g (ll ur : gindex) : outcome (grid * gact) :=
  let (li, lj) := ll in
  let (ui, uj) := ur in
  let nn := num_n g in
  let nm := num_m g in
  let! b1 := block_copy g 0 0 nn lj in
  let! b2 := block_copy g 0 lj li (uj + 1) in
  let! b3 := block_copy g ui lj nn (uj + 1) in
  let! b4 := block_copy g 0 (uj + 1) nn nm in
  let! g := invalidate g (pairs 0 nn 0 lj) in
  let! g := invalidate g (pairs 0 li lj (uj + 1)) in
  let! g := invalidate g (pairs (ui + 1) nn lj (uj + 1)) in
  let! g := invalidate g (pairs 0 nn (uj + 1) nm) in
  Ok (g, Compound Committed
           [Leaf Committed (BlockOf 0 0 nn lj b1); Leaf Committed (BlockOf 0 lj li (uj + 1) b2);
            Leaf Committed (BlockOf ui lj nn (uj + 1) b3); Leaf Committed (BlockOf 0 (uj + 1) nn nm b4)]).

(** Delete(polygons, index), CG.cpp:169-249; [inside] is Polygons::IsPointInPolygon (which throws for a missing point). *)
Definition delete_outside (inside : point -> outcome bool) g : outcome grid :=
  if (mrows (gnodes g) =? 0) || (mcols (gnodes g) =? 0) then Ok g
  else
    let nn := num_n g in
    let nm := num_m g in
    let! node_in := fold_out (fun mask ij =>
                                let! p := get_node g (fst ij) (snd ij) in
                                let! b := inside p in
                                if b then mark nm mask (fst ij) (snd ij) else Ok mask)
                             (pairs 0 nn 0 nm) (repeat false (nn * nm)) in
    let corner ij k := vget node_in ((fst ij + fst k) * nm + (snd ij + snd k)) in
    let! keep := fold_out (fun mask ij =>
                             let! a := corner ij (0, 0) in
                             let! b := corner ij (1, 0) in
                             let! c := corner ij (0, 1) in
                             let! d := corner ij (1, 1) in
                             if negb (a && b && c && d) then Ok mask
                             else
                               let! mask := mark nm mask (fst ij) (snd ij) in
                               let! mask := mark nm mask (fst ij + 1) (snd ij) in
                               let! mask := mark nm mask (fst ij) (snd ij + 1) in
                               mark nm mask (fst ij + 1) (snd ij + 1))
                          (pairs 0 (nn - 1) 0 (nm - 1)) (repeat false (nn * nm)) in
    fold_out (fun g ij =>
                let! b := vget keep (fst ij * nm + snd ij) in
                if b then Ok g else set_node g (fst ij) (snd ij) missing_point)
             (pairs 0 nn 0 nm) g.

(** *** Adding grid lines *)
Inductive line_type := LineBottom | LineTop | LineLeft | LineRight.

(** GetBoundaryGridLineType, CG.cpp:796-843 *)
Definition boundary_line_type g (a b : gindex) : outcome line_type :=
  let! ta := get_type g (fst a) (snd a) in
  let! tb := get_type g (fst b) (snd b) in
  let is x t := node_type_eqb x t in
  if is ta InternalValid || is ta Invalid || is tb InternalValid || is tb Invalid then Throw StdErr
  else if is ta Bottom && is tb Bottom then Ok LineLeft
  else if is ta Up && is tb Up then Ok LineRight
  else if is ta LeftType && is tb LeftType then Ok LineBottom
  else if is ta RightType && is tb RightType then Ok LineTop
  else if snd a =? snd b then
    if snd a + 1 <? mcols (gnodes g) then
      let! va := node_valid g (fst a) (snd a + 1) in
      if va then let! vb := node_valid g (fst b) (snd b + 1) in Ok (if vb then LineLeft else LineRight) else Ok LineRight
    else Ok LineRight
  else if fst a =? fst b then
    if fst a + 1 <? mrows (gnodes g) then
      let! va := node_valid g (fst a + 1) (snd a) in
      if va then let! vb := node_valid g (fst b + 1) (snd b) in Ok (if vb then LineBottom else LineTop) else Ok LineTop
    else Ok LineTop
  else Throw StdErr.

Section AddLines.
  (** [junk]: the indeterminate entries of a matrix while it is being resized *)
  Variable junk : nat -> nat -> point.

  (** The four allocations of AddGridLineAtBoundary (CG.cpp:716-790): a default constructed Point is missing (Point.hpp:39-42). *)
  Definition grow_bottom g : outcome (grid * gleaf) :=
    let! g := (if start_n g =? 0 then
                 let! x := insert_row junk (gnodes g) (repeat missing_point (full_m g)) missing_point 0 in Ok (set_gnodes g x)
               else Ok (set_offsets g (start_n g - 1) (start_m g) (end_n g) (end_m g))) in
    Ok (g, AddLine 1 0 0 0).
  Definition grow_top g : outcome (grid * gleaf) :=
    let! g := (if end_n g =? 0 then
                 let! x := insert_row junk (gnodes g) (repeat missing_point (full_m g)) missing_point (Z.of_nat (full_n g)) in
                 Ok (set_gnodes g x)
               else Ok (set_offsets g (start_n g) (start_m g) (end_n g - 1) (end_m g))) in
    Ok (g, AddLine 0 0 1 0).
  Definition grow_right g : outcome (grid * gleaf) :=
    let! g := (if end_m g =? 0 then
                 let! x := insert_col junk (gnodes g) (repeat missing_point (full_n g)) missing_point (Z.of_nat (full_m g)) in
                 Ok (set_gnodes g x)
               else Ok (set_offsets g (start_n g) (start_m g) (end_n g) (end_m g - 1))) in
    Ok (g, AddLine 0 0 0 1).
  Definition grow_left g : outcome (grid * gleaf) :=
    let! g := (if start_m g =? 0 then
                 let! x := insert_col junk (gnodes g) (repeat missing_point (full_n g)) missing_point 0 in Ok (set_gnodes g x)
               else Ok (set_offsets g (start_n g) (start_m g - 1) (end_n g) (end_m g))) in
    Ok (g, AddLine 0 1 0 0).

  Definition grow (t : line_type) g : outcome (grid * gleaf) :=
    match t with LineBottom => grow_bottom g | LineTop => grow_top g | LineRight => grow_right g | LineLeft => grow_left g end.

  (** AddGridLineAtBoundary, CG.cpp:681-794.  IsInRange is inclusive (Operations.hpp): an index equal to the size passes. *)
  Definition add_grid_line g (a b : gindex) : outcome (grid * option gact) :=
    if (num_m g <? snd a) || (num_n g <? fst a) then Throw ConstraintErr
    else if (num_m g <? snd b) || (num_n g <? fst b) then Throw ConstraintErr
    else
      let! va := node_valid g (fst a) (snd a) in
      let! vb := (if va then node_valid g (fst b) (snd b) else Ok false) in
      let! t := boundary_line_type g a b in
      if negb vb then Ok (g, None)
      else
        let at_border :=
          match t with
          | LineBottom => (fst a =? 0) || (fst b =? 0)
          | LineTop => (fst a =? num_n g - 1) || (fst b =? num_n g - 1)
          | LineRight => (snd a =? num_m g - 1) || (snd b =? num_m g - 1)
          | LineLeft => (snd a =? 0) || (snd b =? 0)
          end in
        if at_border then let! (g, l) := grow t g in Ok (g, Some (Leaf Committed l)) else Ok (g, None).

  (** GetNode(a) * 2.0 - GetNode(b), Point.hpp operators *)
  Definition two : double := double_of 2 0.
  Definition extrapolate (p q : point) : point := Pt (fsub (fmul (px p) two) (px q)) (fsub (fmul (py p) two) (py q)).

  (** A UInt index minus one: 0 wraps around to an index that GetNode rejects *)
  Definition pred_index (i : nat) : outcome nat := match i with 0 => Throw ConstraintErr | S i => Ok i end.

  (** The node one step into the grid that AddEdge extrapolates from, CG.cpp:858, 880, 905, 930 *)
  Definition line_inner (t : line_type) (n m : nat) : outcome gindex :=
    match t with
    | LineBottom => Ok (n + 1, m)
    | LineTop => let! k := pred_index n in Ok (k, m)
    | LineLeft => Ok (n, m + 1)
    | LineRight => let! k := pred_index m in Ok (n, k)
    end.

  (** The node that AddEdge moves, CG.cpp:862-951; [grown]: a line was added *)
  Definition line_outer (t : line_type) (grown : bool) (n m : nat) : outcome gindex :=
    match t with
    | LineBottom => if grown then Ok (0, m) else let! k := pred_index n in Ok (k, m)
    | LineTop => Ok (n + 1, m)
    | LineLeft => if grown then Ok (n, 0) else let! k := pred_index m in Ok (n, k)
    | LineRight => Ok (n, m + 1)
    end.

  Definition extend_node g t (nm : gindex) : outcome point :=
    let! p := get_node g (fst nm) (snd nm) in
    let! k := line_inner t (fst nm) (snd nm) in
    let! q := get_node g (fst k) (snd k) in
    Ok (extrapolate p q).

  (** AddEdge, CG.cpp:845-961 *)
  Definition add_edge g (a b : gindex) : outcome (grid * gact) :=
    let! t := boundary_line_type g a b in
    let! pa := extend_node g t a in
    let! pb := extend_node g t b in
    let! (g, line) := add_grid_line g a b in
    let grown := match line with Some _ => true | None => false end in
    let! subs := compound_add [] line in
    let! ta := line_outer t grown (fst a) (snd a) in
    let! (g, ma) := move_node g (fst ta) (snd ta) pa in
    let! subs := compound_add subs (Some ma) in
    let! tb := line_outer t grown (fst b) (snd b) in
    let! (g, mb) := move_node g (fst tb) (snd tb) pb in
    let! subs := compound_add subs (Some mb) in
    Ok (g, Compound Committed subs).

  (** InsertFace, CG.cpp:653-679; [found] are the nodes of the edge GetEdgeNodeIndices finds *)
  Definition insert_face g (found : option (gindex * gindex)) : outcome (grid * gact) :=
    match found with
    | None => Throw StdErr
    | Some (a, b) =>
        let! g := compute_node_types g in
        let! (g, u) := add_edge g a b in
        let! g := compute_node_types g in
        let! g := reindex g in
        Ok (g, u)
    end.
End AddLines.

(** *** Refinement *)

(** The walk "while (index < total) { step }" of CurvilinearGridDeRefinement::Compute (CurvilinearGridDeRefinement.cpp:57-80): the
    visited indices.  [fuel]: the index grows in every step. *)
Fixpoint coarse_walk (fuel lo hi step total i : nat) : list nat :=
  match fuel with
  | 0 => []
  | S fuel => if i <? total then i :: coarse_walk fuel lo hi step total (i + (if (lo <=? i) && (i <? hi) then step else 1)) else []
  end.

Fixpoint map_out {A B} (f : A -> outcome B) (l : list A) : outcome (list B) :=
  match l with
  | [] => Ok []
  | a :: t => let! b := f a in let! r := map_out f t in Ok (b :: r)
  end.

(** lin_alg::STLVectorOfVectorsToMatrix, LinearAlgebra.hpp:434-452, for rows of equal length *)
Definition matrix_of_rows (rows : list (list point)) : matrix point :=
  Matrix (length rows) (length (hd [] rows)) (fun i j => nth j (nth i rows []) missing_point).

Definition refinement_action g : gact :=
  Leaf Committed (RefineOf (gnodes g) (start_n g) (start_m g) (end_n g) (end_m g)).

(** CurvilinearGridDeRefinement::Compute, CurvilinearGridDeRefinement.cpp:40-86, for a block that is set *)
Definition derefine g (ll ur : gindex) : outcome (grid * gact) :=
  let sm := if snd ll <? snd ur then snd ur - snd ll else 1 in
  let sn := if fst ll <? fst ur then fst ur - fst ll else 1 in
  let ns := coarse_walk (num_n g) (fst ll) (fst ur) sn (num_n g) 0 in
  let ms := coarse_walk (num_m g) (snd ll) (snd ur) sm (num_m g) 0 in
  let! rows := map_out (fun n => map_out (fun m => get_node g n m) ms) ns in
  let! g' := set_grid_nodes g (matrix_of_rows rows) in
  Ok (g', refinement_action g).

(** The loops shared by CurvilinearGridRefinement::Compute (CurvilinearGridRefinement.cpp:73-146) and
    CurvilinearGridFullRefinement::Compute (CurvilinearGridFullRefinement.cpp:41-79): cell (cn, cm) is divided into [fn cn] by [fm cm]
    cells.  [cell cn cm] is the local grid from splines and transfinite interpolation (its nodes are not modelled). *)
Definition refine_cells g (fn fm : nat -> nat) (cell : nat -> nat -> nat -> nat -> point) (rows cols : nat)
  : outcome (matrix point) :=
  let! (x, _) :=
    fold_out (fun (acc : matrix point * nat) cn =>
                let! (x, _) :=
                  fold_out (fun (acc' : matrix point * nat) cm =>
                              let (x, rm) := acc' in
                              let! v := face_nodes_valid g cn cm in
                              let! x :=
                                (if v then
                                   if (snd acc + fn cn <? mrows x) && (rm + fm cm <? mcols x)
                                   then Ok (Matrix (mrows x) (mcols x)
                                              (write_block (entry x) (snd acc) rm (fn cn + 1) (fm cm + 1) (cell cn cm)))
                                   else UB
                                 else Ok x) in
                              Ok (x, rm + fm cm))
                           (range 0 (num_m g - 1)) (fst acc, 0) in
                Ok (x, snd acc + fn cn))
             (range 0 (num_n g - 1)) (Matrix rows cols (fun _ _ => missing_point), 0) in
  Ok x.

(** GetNodeVectorAtM and GetNodeVectorAtN, CG.hpp:406-411: a whole row and a whole column, including hidden nodes; the offsets used
    are those of the other direction. *)
Definition node_vector_at_m g (m : nat) : outcome (list point) := row_to_vector (gnodes g) (Z.of_nat (m + start_m g)).
Definition node_vector_at_n g (n : nat) : outcome (list point) := col_to_vector (gnodes g) (Z.of_nat (n + start_n g)).

(** Splines(grid), Splines.cpp:43-58: the support points of the splines that refinement interpolates *)
Definition grid_splines g : outcome (list (list point)) :=
  let! a := map_out (node_vector_at_n g) (range 0 (num_m g)) in
  let! b := map_out (node_vector_at_m g) (range 0 (num_n g)) in
  Ok (a ++ b).

(** CurvilinearGridRefinement::Compute, CurvilinearGridRefinement.cpp:45-149, for a block that is set.  The order in which the four
    nodes of a cell are tested differs from AreFaceNodesValid; the tests have no effect. *)
Definition refine (cell : nat -> nat -> nat -> nat -> point) g (ll ur : gindex) (r : nat) : outcome (grid * gact) :=
  if negb (snd ll =? snd ur) && negb (fst ll =? fst ur) then Throw StdErr
  else
    let factor lo hi c := if (lo <=? c) && (c <? hi) then r else 1 in
    let! x := refine_cells g (factor (fst ll) (fst ur)) (factor (snd ll) (snd ur)) cell
                (num_n g + (fst ur - fst ll) * (r - 1)) (num_m g + (snd ur - snd ll) * (r - 1)) in
    let! g' := set_grid_nodes g x in
    Ok (g', refinement_action g).

(** CurvilinearGridFullRefinement::Compute, CurvilinearGridFullRefinement.cpp:5-82; missing factors (rejected at :16-20) are not
    modelled.  The undo action is made after the loops, from the grid that is still unchanged then. *)
Definition full_refine (cell : nat -> nat -> nat -> nat -> point) g (rm rn : nat) : outcome (grid * option gact) :=
  if (rm =? 0) || (rn =? 0) then Throw ConstraintErr
  else if (rm =? 1) && (rn =? 1) then Ok (g, None)
  else
    let! x := refine_cells g (fun _ => rn) (fun _ => rm) cell ((num_n g - 1) * rn + 1) ((num_m g - 1) * rm + 1) in
    let! g' := set_grid_nodes g x in
    Ok (g', Some (refinement_action g)).

(** *** Boundary *)

(** operator<=> of CurvilinearGridNodeIndices (n first, then m), CurvilinearGridNodeIndices.hpp:71-79 *)
Definition index_ltb (a b : gindex) : bool := (fst a <? fst b) || ((fst a =? fst b) && (snd a <? snd b)).
Definition index_eqb (a b : gindex) : bool := (fst a =? fst b) && (snd a =? snd b).
Definition gedge := (gindex * gindex)%type.
Definition edge_ltb (a b : gedge) : bool :=
  index_ltb (fst a) (fst b) || (negb (index_ltb (fst b) (fst a)) && index_ltb (snd a) (snd b)).
Definition edge_eqb (a b : gedge) : bool := index_eqb (fst a) (fst b) && index_eqb (snd a) (snd b).

(** std::set<CurvilinearEdge>: the elements in increasing order; find, erase and insert as in CG.cpp:1369-1378 *)
Fixpoint set_insert (e : gedge) (l : list gedge) : list gedge :=
  match l with
  | [] => [e]
  | h :: t => if edge_ltb e h then e :: l else if edge_ltb h e then h :: set_insert e t else l
  end.
Definition set_erase (e : gedge) (l : list gedge) : list gedge := filter (fun x => negb (edge_eqb e x)) l.
Definition toggle (l : list gedge) (e : gedge) : list gedge :=
  if existsb (edge_eqb e) l then set_erase e l else set_insert e l.

Definition sort_edge (a b : gindex) : gedge := (if index_ltb b a then b else a, if index_ltb a b then b else a).

(** The four edges of a cell in the order of CG.cpp:1351-1367 *)
Definition cell_edges (n m : nat) : list gedge :=
  [sort_edge (n, m) (n, m + 1); sort_edge (n, m + 1) (n + 1, m + 1); sort_edge (n + 1, m + 1) (n + 1, m);
   sort_edge (n + 1, m) (n, m)].

(** all_of over the four corners, CG.cpp:1356-1360 *)
Definition cell_complete g n m : outcome bool :=
  let! a := node_valid g n m in
  if negb a then Ok false
  else
    let! b := node_valid g n (m + 1) in
    if negb b then Ok false
    else
      let! c := node_valid g (n + 1) (m + 1) in
      if negb c then Ok false else node_valid g (n + 1) m.

(** ComputeBoundaryEdges, CG.cpp:1340-1384 *)
Definition boundary_edges g (ll ur : gindex) : outcome (list gedge) :=
  fold_out (fun s nm =>
              let! v := cell_complete g (fst nm) (snd nm) in
              Ok (if v then fold_left toggle (cell_edges (fst nm) (snd nm)) s else s))
           (pairs (fst ll) (fst ur) (snd ll) (snd ur)) [].

(** The inner loop of ComputeBoundaryPolygons, CG.cpp:1407-1418: from [shared] on, until [start] is reached.  Returns the visited nodes
    and the remaining set.  Dereferencing end() is undefined behaviour; so is running out of [fuel] here. *)
Fixpoint trace (fuel : nat) (start shared : gindex) (current : gedge) (s : list gedge) : outcome (list gindex * list gedge) :=
  if index_eqb shared start then Ok ([], set_erase current s)
  else
    match fuel with
    | 0 => UB
    | S fuel =>
        let s := set_erase current s in
        match find (fun e => index_eqb (fst e) shared || index_eqb (snd e) shared) s with
        | None => UB
        | Some e =>
            let! (l, s) := trace fuel start (if index_eqb (fst e) shared then snd e else fst e) e s in
            Ok (shared :: l, s)
        end
    end.

(** The outer loop, CG.cpp:1402-1431: the closed polygons as node indices *)
Fixpoint trace_all (fuel : nat) (s : list gedge) : outcome (list (list gindex)) :=
  match s with
  | [] => Ok []
  | e :: _ =>
      match fuel with
      | 0 => UB
      | S fuel =>
          let! (l, s) := trace (length s) (fst e) (snd e) e s in
          let! r := trace_all fuel s in
          Ok ((fst e :: l ++ [fst e]) :: r)
      end
  end.

(** result: the nodes of each polygon, separated by missing points *)
Fixpoint join_polygons (l : list (list point)) : list point :=
  match l with
  | [] => []
  | [p] => p
  | p :: t => p ++ missing_point :: join_polygons t
  end.

(** ComputeBoundaryPolygons, CG.cpp:1386-1432.  The nodes are read after the walk instead of during it. *)
Definition boundary_polygons g (ll ur : gindex) : outcome (list point) :=
  let! s := boundary_edges g ll ur in
  let! polys := trace_all (length s) s in
  let! pts := map_out (map_out (fun nm => get_node g (fst nm) (snd nm))) polys in
  Ok (join_polygons pts).
