(** Moving the nodes of a curvilinear grid: selected lines and blocks, smoothing, attraction, shifting a line, mirroring a line, snapping.
    Source: /repo/libs/MeshKernel/src/CurvilinearGrid/CurvilinearGridAlgorithm.cpp, CurvilinearGridLine.cpp, CurvilinearGridSmoothing.cpp
    (Smoothing.cpp below), CurvilinearGridLineAttractionRepulsion.cpp (Attraction.cpp), CurvilinearGridLineShift.cpp (LineShift.cpp),
    CurvilinearGridLineMirror.cpp (LineMirror.cpp), CurvilinearGridSnapping.cpp (Snapping.cpp), CurvilinearGrid.cpp (CG.cpp).
    Not modelled: the search that turns a point into node indices (the indices are arguments); distances, cosines, projections on
    segments, nearest points and expansion factors are arguments; the point operations are those of binary64 arithmetic. *)
From Verif Require Import Base FloatModel UtilModel UndoModel ActionModel GridModel.

(** Point operators, Point.hpp *)
Definition padd (p q : point) : point := Pt (fadd (px p) (px q)) (fadd (py p) (py q)).
Definition psub (p q : point) : point := Pt (fsub (px p) (px q)) (fsub (py p) (py q)).
Definition pscale (p : point) (a : double) : point := Pt (fmul (px p) a) (fmul (py p) a).

Definition zero : double := double_of 0 0.
Definition one : double := double_of 1 0.
Definition half : double := double_of 1 (-1).
Definition quarter : double := double_of 1 (-2).
Definition one_third : double := fdiv one (double_of 3 0).
Definition nat_double (k : nat) : double := double_of (Z.of_nat k) 0.
Definition origin : point := Pt zero zero.

(** *** Lines *)

(** CurvilinearGridLine, CurvilinearGridLine.hpp; the other members follow from the two nodes (CurvilinearGridLine.cpp:44-47) *)
Record gline := GLine { l_start : gindex; l_end : gindex }.
Definition along_n (l : gline) : bool := snd (l_start l) =? snd (l_end l).
Definition l_first (l : gline) : nat := if along_n l then fst (l_start l) else snd (l_start l).
Definition l_last (l : gline) : nat := if along_n l then fst (l_end l) else snd (l_end l).
Definition l_fixed (l : gline) : nat := if along_n l then snd (l_start l) else fst (l_start l).

Definition index_same (a b : gindex) : bool := (fst a =? fst b) && (snd a =? snd b).

(** The constructor, CurvilinearGridLine.cpp:35-48 *)
Definition new_line (a b : gindex) : outcome gline := if index_same a b then Throw StdErr else Ok (GLine a b).

(** IsNodeOnLine, CurvilinearGridLine.cpp:50-64 *)
Definition on_line (l : gline) (nm : gindex) : bool :=
  existsb (fun i => if along_n l then (fst nm =? i) && (snd nm =? l_fixed l) else (snd nm =? i) && (fst nm =? l_fixed l))
          (range (l_first l) (l_last l + 1)).

(** GetNodeIndexFromCoordinate, CurvilinearGridLine.cpp:66-72 *)
Definition line_node (l : gline) (c : nat) : gindex := if along_n l then (c, l_fixed l) else (l_fixed l, c).

(** SetBlock, CurvilinearGridAlgorithm.cpp:41-54; [a], [b] are the nodes found for the two points *)
Definition set_block g (a b : gindex) : outcome (gindex * gindex) :=
  let! (ll, ur) := block_from_corners g (Some (fst a), Some (snd a)) (Some (fst b), Some (snd b)) in
  if index_same ll ur then Throw StdErr else Ok (ll, ur).

(** The crossing test of SetLine, CurvilinearGridAlgorithm.cpp:77-90 *)
Definition crosses (new old : gline) : bool :=
  existsb (fun i => existsb (fun j => (j =? l_fixed old) && (i =? l_fixed new)) (range (l_first new) (l_last new + 1)))
          (range (l_first old) (l_last old + 1)).

(** SetLine, CurvilinearGridAlgorithm.cpp:56-94: the lines after it *)
Definition set_line g (lines : list gline) (a b : gindex) : outcome (list gline) :=
  let! (ll, ur) := block_from_corners g (Some (fst a), Some (snd a)) (Some (fst b), Some (snd b)) in
  if index_same ll ur then Throw AlgorithmErr
  else if negb ((fst ll =? fst ur) || (snd ll =? snd ur)) then Throw AlgorithmErr
  else
    let! l := new_line ll ur in
    if existsb (crosses l) lines then Throw AlgorithmErr else Ok (lines ++ [l]).

(** *** Smoothing *)

(** m_gridNodesCache(n, m): a copy of the whole matrix of nodes, indexed without offsets *)
Definition cached (c : matrix point) (n m : nat) : outcome point :=
  if (n <? mrows c) && (m <? mcols c) then Ok (entry c n m) else UB.
(** A UInt minus one as an index: 0 wraps around beyond every matrix. *)
Definition down (i : nat) : outcome nat := match i with 0 => UB | S k => Ok k end.

Section Smoothing.
  (** OrthogonalProjectionOnSegment(first, second, point): the projected point, the ratio and whether it is on the segment *)
  Variable project : point -> point -> point -> point * double * bool.

  (** ProjectPointOnClosestGridBoundary, Smoothing.cpp:235-285: the new position of the node [here] between two neighbours *)
  Definition onto_boundary (here previous next p : point) : point :=
    let '(p1, r1, on1) := project here previous p in
    let '(p2, r2, on2) := project here next p in
    if on1 && on2 && SFltb r1 r2 then p2
    else if on1 && on2 && SFleb r2 r1 then p1
    else if on1 then p1
    else if on2 then p2
    else pscale (padd p1 p2) half.

  (** The position of a node on a side: its neighbours along the side and the one inside, Smoothing.cpp:211-228 *)
  Definition side_position (here a b inner : point) : point :=
    padd (pscale here half) (pscale (pscale (padd (padd a b) inner) one_third) half).

  (** One node of Solve, Smoothing.cpp:186-231 *)
  Definition smooth_node (c : matrix point) g (nm : gindex) : outcome grid :=
    let (n, m) := nm in
    let! t := get_type g n m in
    match t with
    | Invalid | BottomLeft | UpperLeft | BottomRight | UpperRight => Ok g
    | InternalValid =>
        let! n' := down n in
        let! m' := down m in
        let! p := cached c n m in
        let! w := cached c n' m in
        let! e := cached c (n + 1) m in
        let! s := cached c n m' in
        let! o := cached c n (m + 1) in
        set_node g n m (padd (padd (pscale p half) (pscale (pscale (padd w e) quarter) half)) (pscale (pscale (padd s o) quarter) half))
    | Bottom | Up =>
        let! n' := down n in
        let! k := (match t with Bottom => Ok (m + 1) | _ => down m end) in
        let! p := cached c n m in
        let! a := cached c n' m in
        let! b := cached c (n + 1) m in
        let! i := cached c n k in
        set_node g n m (onto_boundary p a b (side_position p a b i))
    | LeftType | RightType =>
        let! m' := down m in
        let! k := (match t with LeftType => Ok (n + 1) | _ => down n end) in
        let! p := cached c n m in
        let! a := cached c n m' in
        let! b := cached c n (m + 1) in
        let! i := cached c k m in
        set_node g n m (onto_boundary p a b (side_position p a b i))
    end.

  (** Solve, Smoothing.cpp:178-233 *)
  Definition smooth_once (ll ur : gindex) g : outcome grid :=
    fold_out (smooth_node (gnodes g)) (pairs (fst ll) (fst ur + 1) (snd ll) (snd ur + 1)) g.

  Fixpoint repeated (k : nat) (f : grid -> outcome grid) g : outcome grid :=
    match k with 0 => Ok g | S k => let! g := f g in repeated k f g end.

  (** The constructor (Smoothing.cpp:40-48: node types) and Compute (Smoothing.cpp:50-65) *)
  Definition smooth (k : nat) (ll ur : gindex) g : outcome (grid * gact) :=
    let! g := compute_node_types g in
    let! b := block_copy g (fst ll) (snd ll) (fst ur + 1) (snd ur + 1) in
    let! g := repeated k (smooth_once ll ur) g in
    Ok (g, Leaf Committed (BlockOf (fst ll) (snd ll) (fst ur + 1) (snd ur + 1) b)).
End Smoothing.

Section Factors.
  (** (1.0 + cos(M_PI * a / b)) * 0.5 *)
  Variable fade : nat -> nat -> double.
  (** ComputeDistance(p, q, projection) *)
  Variable distance : projection -> point -> point -> double.

  (** One component of ComputeDirectionalSmoothingFactors, CG.cpp:938-961: coordinate [x], the line's [y], the block's [lo] and [hi] *)
  Definition fading (x y lo hi : nat) : double :=
    let delta := if y <? x then x - y else y - x in
    let most := if y <? x then hi - y else y - lo in
    if most =? 0 then one else fade delta most.

  (** The component across the line *)
  Definition across (l : gline) (ll ur nm : gindex) : double :=
    if along_n l then fading (snd nm) (snd (l_start l)) (snd ll) (snd ur)
    else fading (fst nm) (fst (l_start l)) (fst ll) (fst ur).

  (** *** Directional smoothing *)
  Definition larger (a b : double) : double := if SFltb a b then b else a.
  Definition length2 (p : point) : double := fadd (fmul (px p) (px p)) (fmul (py p) (py p)).
  Definition tiny8 : double := fdiv one (double_of 100000000 0).

  (** The new position from the cached node [p], its cached neighbours [a] and [b], the present node [q], Smoothing.cpp:152-173 *)
  Definition slide (f : double) (p a b q : point) : point :=
    let l1 := length2 (psub p a) in
    let l2 := length2 (psub p b) in
    let most := larger l1 l2 in
    let typical := fmul (SFabs (fsub l2 l1)) half in
    let w := if SFltb most tiny8 then half else fdiv (fmul (fmul f half) typical) most in
    let delta := if SFltb l2 l1 then psub a q else psub b q in
    padd p (pscale delta w).

  (** One node of SolveDirectional, Smoothing.cpp:127-175 *)
  Definition slide_node (l : gline) (ll ur : gindex) (c : matrix point) g (nm : gindex) : outcome grid :=
    let (n, m) := nm in
    let! t := get_type g n m in
    let moves := if along_n l then match t with InternalValid | Bottom | Up => true | _ => false end
                 else match t with InternalValid | LeftType | RightType => true | _ => false end in
    if moves then
      let! p := cached c n m in
      let! k := down (if along_n l then n else m) in
      let! a := (if along_n l then cached c k m else cached c n k) in
      let! b := (if along_n l then cached c (n + 1) m else cached c n (m + 1)) in
      let! q := get_node g n m in
      set_node g n m (slide (across l ll ur (n, m)) p a b q)
    else Ok g.

  (** The block of ComputeDirectional, Smoothing.cpp:82-96 *)
  Definition line_block (l : gline) (ll ur : gindex) : gindex * gindex :=
    if along_n l then ((l_first l, min (snd ll) (snd ur)), (l_last l, max (snd ll) (snd ur)))
    else ((min (fst ll) (fst ur), l_first l), (max (fst ll) (fst ur), l_last l)).
  Definition flat_across (l : gline) (ll ur : gindex) : bool :=
    if along_n l then snd ll =? snd ur else fst ll =? fst ur.

  Definition slide_once (l : gline) (ll ur : gindex) g : outcome grid :=
    fold_out (slide_node l ll ur (gnodes g)) (pairs (fst ll) (fst ur + 1) (snd ll) (snd ur + 1)) g.

  (** The constructor and ComputeDirectional, Smoothing.cpp:40-48, 67-104, for the line set first: the grid it was made with,
      changed in place, and the grid returned *)
  Definition smooth_directional (k : nat) (lines : list gline) (ll ur : gindex) g : outcome (grid * grid) :=
    let! g := compute_node_types g in
    match lines with
    | [] => Throw StdErr
    | l :: _ =>
        if flat_across l ll ur then Throw StdErr
        else
          let (ll, ur) := line_block l ll ur in
          let! g := repeated k (slide_once l ll ur) g in
          Ok (g, copy_ctor g)
    end.

  (** *** Attraction and repulsion *)

  (** ComputeAverageNodalDistance, CG.cpp:963-1010; [other]: the neighbour, if its index is inside *)
  Definition edge_length g (nm : gindex) (other : option gindex) : outcome (option double) :=
    match other with
    | None => Ok None
    | Some q =>
        let! v := node_valid g (fst q) (snd q) in
        if v then
          let! a := get_node g (fst nm) (snd nm) in
          let! b := get_node g (fst q) (snd q) in
          Ok (Some (distance (proj g) a b))
        else Ok None
    end.
  Definition before_node (ln : bool) (nm : gindex) : option gindex :=
    let (n, m) := nm in
    if ln then (if 0 <? n then Some (n - 1, m) else None) else (if 0 <? m then Some (n, m - 1) else None).
  Definition after_node g (ln : bool) (nm : gindex) : option gindex :=
    let (n, m) := nm in
    if ln then (if n + 1 <? num_n g then Some (n + 1, m) else None) else (if m + 1 <? num_m g then Some (n, m + 1) else None).
  Definition average_distance g (nm : gindex) (ln : bool) : outcome double :=
    if (num_m g <? snd nm) || (num_n g <? fst nm) then Throw StdErr
    else
      let! a := edge_length g nm (before_node ln nm) in
      let! b := edge_length g nm (after_node g ln nm) in
      Ok (match a, b with
          | None, None => zero
          | Some x, None => fdiv (fadd x zero) one
          | None, Some y => fdiv (fadd zero y) one
          | Some x, Some y => fdiv (fadd x y) (double_of 2 0)
          end).

  (** TransformDisplacement, CG.cpp:1012-1040 *)
  Definition valid_or g (d : point) (q : option gindex) : outcome point :=
    match q with
    | None => Ok d
    | Some q => let! p := get_node g (fst q) (snd q) in Ok (if is_valid p then p else d)
    end.
  Definition turned (local : bool) (d h : point) (len : double) : point :=
    if SFltb zero len then
      if local then Pt (fdiv (fadd (fmul (px d) (px h)) (fmul (py d) (py h))) len) (fdiv (fsub (fmul (py d) (px h)) (fmul (px d) (py h))) len)
      else Pt (fdiv (fsub (fmul (px d) (px h)) (fmul (py d) (py h))) len) (fdiv (fadd (fmul (px d) (py h)) (fmul (py d) (px h))) len)
    else origin.
  Definition transform g (d : point) (nm : gindex) (local : bool) : outcome point :=
    let! p := get_node g (fst nm) (snd nm) in
    let! e := valid_or g p (after_node g true nm) in
    let! w := valid_or g p (before_node true nm) in
    Ok (turned local d (psub e w) (distance (proj g) e w)).

  Definition empty_nodes g : bool := (mrows (gnodes g) =? 0) || (mcols (gnodes g) =? 0).

  (** The nodes saved and moved: the line's range along it, the block's range across, Attraction.cpp:66-71, LineShift.cpp:52-57 *)
  Definition influence (l : gline) (ll ur : gindex) : gindex * gindex :=
    if along_n l then ((l_first l, snd ll), (l_last l, snd ur)) else ((fst ll, l_first l), (fst ur, l_last l)).

  (** The displacement of a node before it is turned, Attraction.cpp:93-106 *)
  Definition pull (factor : double) (l : gline) (ll ur nm : gindex) (len : double) : point :=
    let here := if along_n l then snd nm else fst nm in
    let direction := if here <? l_fixed l then one else SFopp one in
    let d := fmul (fmul (fmul len factor) (across l ll ur nm)) direction in
    if along_n l then Pt zero d else Pt d zero.

  (** One node, Attraction.cpp:77-114; [o] is the copy of the grid made by the constructor *)
  Definition attract_node (factor : double) (l : gline) (ll ur : gindex) (o : grid) g (nm : gindex) : outcome grid :=
    let! v := node_valid o (fst nm) (snd nm) in
    if negb v then Ok g
    else if on_line l nm then Ok g
    else
      let! len := average_distance o nm (along_n l) in
      let! d := transform o (pull factor l ll ur nm len) nm false in
      let! p := get_node g (fst nm) (snd nm) in
      set_node g (fst nm) (snd nm) (padd p d).

  (** Compute, Attraction.cpp:46-119, after the constructor, Attraction.cpp:38-44 *)
  Definition attract (factor : double) (lines : list gline) (ll ur : gindex) g : outcome (grid * gact) :=
    let o := copy_ctor g in
    if empty_nodes g then Throw StdErr
    else match lines with
         | [] => Throw StdErr
         | l :: _ =>
             if flat_across l ll ur then Throw StdErr
             else
               let (a, b) := influence l ll ur in
               let! block := block_copy g (fst a) (snd a) (fst b + 1) (snd b + 1) in
               let! g := fold_out (attract_node factor l ll ur o) (pairs (fst a) (fst b + 1) (snd a) (snd b + 1)) g in
               Ok (g, Leaf Committed (BlockOf (fst a) (snd a) (fst b + 1) (snd b + 1) block))
         end.

  (** *** Shifting a line *)

  (** One node of TransformGrid, LineShift.cpp:121-146 *)
  Definition drag_node (l : gline) (ll ur : gindex) (o : grid) (d : point) g (nm : gindex) : outcome grid :=
    let! p := get_node o (fst nm) (snd nm) in
    if negb (is_valid p) then Ok g
    else
      let! d := transform o (pscale d (across l ll ur nm)) nm false in
      set_node g (fst nm) (snd nm) (padd p d).

  (** The nodes of the block on the grid line through [nm] across the line *)
  Definition cross_nodes (l : gline) (ll ur nm : gindex) : list gindex :=
    if along_n l then map (fun i => (fst nm, i)) (range (snd ll) (snd ur + 1)) else map (fun i => (i, snd nm)) (range (fst ll) (fst ur + 1)).

  (** TransformGrid, LineShift.cpp:113-147 *)
  Definition drag (l : gline) (ll ur : gindex) (o : grid) g (nm : gindex) : outcome grid :=
    let! p := get_node g (fst nm) (snd nm) in
    let! q := get_node o (fst nm) (snd nm) in
    let! d := transform o (psub p q) nm true in
    fold_out (drag_node l ll ur o d) (cross_nodes l ll ur nm) g.

  (** One node of the inner loop of Compute, LineShift.cpp:83-96: coordinate [j] between [i0] and [i] *)
  Definition place (l : gline) (ll ur : gindex) (o : grid) (i0 i : nat) (d0 d : point) g (j : nat) : outcome grid :=
    let nm := line_node l j in
    let f := fdiv (nat_double (j - i0)) (nat_double (i - i0)) in
    let! p := get_node o (fst nm) (snd nm) in
    let! g := set_node g (fst nm) (snd nm) (padd (padd p (pscale d0 (fsub one f))) (pscale d f)) in
    drag l ll ur o g nm.

  Definition tiny5 : double := fdiv one (double_of 100000 0).
  Definition unmoved (d : point) : bool := SFltb (SFabs (px d)) tiny5 && SFltb (SFabs (py d)) tiny5.

  (** One round of the outer loop, LineShift.cpp:67-98: the grid, the coordinate and the delta of the last moved node *)
  Definition shift_step (l : gline) (ll ur : gindex) (o : grid) (s : grid * nat * point) (i : nat) : outcome (grid * nat * point) :=
    let '(g, i0, d0) := s in
    let nm := line_node l i in
    let! p := get_node g (fst nm) (snd nm) in
    let! q := get_node o (fst nm) (snd nm) in
    let d := psub p q in
    if unmoved d && negb (i =? l_last l) then Ok s
    else
      let last := if i =? l_last l then i else i - 1 in
      let! g := fold_out (place l ll ur o i0 i d0 d) (range i0 (last + 1)) g in
      Ok (g, i, d).

  (** Compute(), LineShift.cpp:45-101; [o] is the grid when the object was made *)
  Definition shift_lines (lines : list gline) (ll ur : gindex) (o g : grid) : outcome (grid * gact) :=
    match lines with
    | [] => Throw StdErr
    | l :: _ =>
        let (a, b) := influence l ll ur in
        let! block := block_copy g (fst a) (snd a) (fst b + 1) (snd b + 1) in
        let! p := get_node g (fst (l_start l)) (snd (l_start l)) in
        let! q := get_node o (fst (l_start l)) (snd (l_start l)) in
        let! (gi, _) := fold_out (shift_step l ll ur o) (range 1 (l_last l + 1)) (g, l_first l, psub p q) in
        Ok (fst gi, Leaf Committed (BlockOf (fst a) (snd a) (fst b + 1) (snd b + 1) block))
    end.

  (** MoveNode, LineShift.cpp:149-175, for a block that has been set: [nm] is the node found for the point *)
  Definition shift_move (lines : list gline) g (nm : gindex) (p : point) : outcome (grid * gact) :=
    match lines with
    | [] => Throw StdErr
    | l :: _ => if negb (on_line l nm) then Throw StdErr else move_node g (fst nm) (snd nm) p
    end.

  (** The object made (the copy of the grid, LineShift.cpp:39-43), any number of MoveNode calls, then Compute(): the actions in order *)
  Definition shift (moves : list (gindex * point)) (lines : list gline) (ll ur : gindex) g : outcome (grid * list gact) :=
    let o := copy_ctor g in
    let! (g, acts) := fold_out (fun s mv => let! (g, a) := shift_move lines (fst s) (fst mv) (snd mv) in Ok (g, snd s ++ [a])) moves (g, []) in
    let! (g, a) := shift_lines lines ll ur o g in
    Ok (g, acts ++ [a]).
End Factors.

(** *** Mirroring a line *)
Section Mirror.
  Variable junk : nat -> nat -> point.

  Definition blend (factor : double) (p q : point) : point := padd (pscale p (fadd one factor)) (pscale q (SFopp factor)).

  (** The saved block, LineMirror.cpp:83-103 *)
  Definition mirror_block (t : line_type) (l : gline) g : gindex * gindex :=
    match t with
    | LineBottom => ((0, l_first l), (1, l_last l + 1))
    | LineTop => ((num_n g - 1, l_first l), (num_n g, l_last l + 1))
    | LineRight => ((l_first l, num_m g - 1), (l_last l + 1, num_m g))
    | LineLeft => ((0, l_first l), (l_last l + 1, l_first l + 1))
    end.

  (** The node written and the two it is computed from, LineMirror.cpp:107-133 *)
  Definition mirror_nodes (t : line_type) g (i : nat) : outcome (gindex * gindex * gindex) :=
    match t with
    | LineBottom => Ok ((0, i), (1, i), (2, i))
    | LineTop => let! a := pred_index (num_n g - 1) in let! b := pred_index a in Ok ((num_n g - 1, i), (a, i), (b, i))
    | LineRight => let! a := pred_index (num_m g - 1) in let! b := pred_index a in Ok ((i, num_m g - 1), (i, a), (i, b))
    | LineLeft => Ok ((i, 0), (i, 1), (i, 2))
    end.

  Definition mirror_node (factor : double) (t : line_type) g (i : nat) : outcome grid :=
    let! (ab, c) := mirror_nodes t g i in
    let (a, b) := (ab : gindex * gindex) in
    let! p := get_node g (fst b) (snd b) in
    let! q := get_node g (fst c) (snd c) in
    set_node g (fst a) (snd a) (blend factor p q).

  (** Compute, LineMirror.cpp:48-137, after the constructor, LineMirror.cpp:39-46 *)
  Definition mirror (factor : double) (lines : list gline) g : outcome (grid * gact) :=
    if SFleb factor zero then Throw StdErr
    else match lines with
         | [] => Throw StdErr
         | l :: _ =>
             if negb (grid_valid g) then Throw StdErr
             else
               let! g := compute_node_types g in
               let! t := boundary_line_type g (l_start l) (l_end l) in
               let! (g, added) := add_grid_line junk g (l_start l) (l_end l) in
               let! g := compute_node_types g in
               let! subs := compound_add [] added in
               let (a, b) := mirror_block t l g in
               let! block := block_copy g (fst a) (snd a) (fst b) (snd b) in
               let! subs := compound_add subs (Some (Leaf Committed (BlockOf (fst a) (snd a) (fst b) (snd b) block))) in
               let! g := fold_out (mirror_node factor t) (range (l_first l) (l_last l + 1)) g in
               Ok (g, Compound Committed subs)
         end.
End Mirror.

(** *** Snapping *)
Section Snapping.
  (** FindNearestPoint; the expansion calculator for the copy of the grid (CurvilinearGridMeshExpansionCalculator.cpp:11-34, 66-83): factor for
      a snapped node, where it is in the grid at that moment, and a node *)
  Variable nearest : point -> point.
  Variable expansion : point -> gindex -> gindex -> double.
  (** IsEqual(p, q, 1.0e-5) *)
  Variable close : point -> point -> bool.

  (** The region around the line: only the line (two points), or a box *)
  Inductive region := LineOnly | Box (ll ur : gindex).

  (** m_expansionRegionIndicator, Snapping.cpp:61-62 *)
  Definition indicator (s e : gindex) : gindex := (min 1 (snd e - snd s), min 1 (fst e - fst s)).

  (** ComputeLoopBounds, Snapping.cpp:65-88; factors 80 and 10000 *)
  Definition reach_low (k x i lo : nat) : nat := max lo (x - k * i).
  Definition reach_high (k x i hi : nat) : nat := min hi (x + k * i).
  Definition ten_thousand : nat := 100 * 100.
  Definition loop_bounds g (r : region) (s e nm : gindex) : gindex * gindex :=
    let (i, j) := indicator s e in
    match r with
    | LineOnly => ((reach_low 80 (fst nm) i 0, reach_low 80 (snd nm) j 0),
                   (reach_high 80 (fst nm) i (num_n g - 1), reach_high 80 (snd nm) j (num_m g - 1)))
    | Box ll ur => ((reach_low ten_thousand (fst nm) i (fst ll), reach_low ten_thousand (snd nm) j (snd ll)),
                    (reach_high ten_thousand (fst nm) i (fst ur), reach_high ten_thousand (snd nm) j (snd ur)))
    end.

  (** The loops "for m in [m0, m1] for n in [n0, n1]" *)
  Definition pairs_m (a b : gindex) : list gindex :=
    map (fun mn => (snd mn, fst mn)) (list_prod (range (snd a) (snd b + 1)) (range (fst a) (fst b + 1))).

  (** ApplyExpansionToGrid, Snapping.cpp:108-136 *)
  Definition expand_node (o : grid) (nm : gindex) (d : point) g (q : gindex) : outcome grid :=
    let! p := get_node o (fst q) (snd q) in
    if negb (is_valid p) then Ok g
    else
      let! at_nm := get_node g (fst nm) (snd nm) in
      let f := expansion at_nm nm q in
      if SFltb zero f then set_node g (fst q) (snd q) (padd p (pscale d f)) else Ok g.
  Definition expand (r : region) (s e : gindex) (o g : grid) (nm : gindex) : outcome grid :=
    let (a, b) := loop_bounds g r s e nm in
    let! p := get_node g (fst nm) (snd nm) in
    let! q := get_node o (fst nm) (snd nm) in
    fold_out (expand_node o nm (psub p q)) (pairs_m a b) g.

  (** One node of Compute, Snapping.cpp:146-167 *)
  Definition snap_node (r : region) (s e : gindex) (o : grid) g (nm : gindex) : outcome grid :=
    let! p := get_node o (fst nm) (snd nm) in
    if negb (is_valid p) then Ok g
    else
      let! g := set_node g (fst nm) (snd nm) (nearest p) in
      if close p (nearest p) then Ok g else expand r s e o g nm.

  (** The box of Initialise, Snapping.cpp:29-62: [rest] are the nodes found for the control points after the first two *)
  Definition snap_region g (s e : gindex) (rest : list gindex) : outcome region :=
    match rest with
    | [] => Ok LineOnly
    | [x] => Ok (Box (min (min (fst s) (fst e)) (fst x), min (min (snd s) (snd e)) (snd x))
                     (max (max (fst s) (fst e)) (fst x), max (max (snd s) (snd e)) (snd x)))
    | [x; y] =>
        let! (lo, hi) := block_from_corners g (Some (fst x), Some (snd x)) (Some (fst y), Some (snd y)) in
        Ok (Box (min (fst s) (fst lo), min (snd s) (snd lo)) (max (fst e) (fst hi), max (snd e) (snd hi)))
    | _ => Throw ConstraintErr
    end.

  (** The constructor (Snapping.cpp:9-27) with valid control points and Compute (Snapping.cpp:138-172); the points are the nodes found *)
  Definition snap (points : list gindex) g : outcome (grid * gact) :=
    let o := copy_ctor g in
    match points with
    | a :: b :: rest =>
        if 2 <? length rest then Throw ConstraintErr
        else
          let! (s, e) := block_from_corners g (Some (fst a), Some (snd a)) (Some (fst b), Some (snd b)) in
          let! r := snap_region g s e rest in
          let! block := block_copy g 0 0 (num_n g) (num_m g) in
          let! h := fold_out (snap_node r s e o) (pairs_m s e) g in
          Ok (h, Leaf Committed (BlockOf 0 0 (num_n g) (num_m g) block))
    | _ => Throw ConstraintErr
    end.
End Snapping.
