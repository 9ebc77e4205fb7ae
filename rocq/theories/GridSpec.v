(** What the properties of curvilinear grids are stated with. *)
From Verif Require Import Base FloatModel UtilModel GridModel.

(** The hidden margins leave at least two lines visible in both directions. *)
Definition gwf (g : grid) : Prop :=
  start_n g + end_n g + 2 <= mrows (gnodes g) /\ start_m g + end_m g + 2 <= mcols (gnodes g).

(** The visible nodes. *)
Definition vis (g : grid) (n m : nat) : point := entry (gnodes g) (start_n g + n) (start_m g + m).
Definition shown (g : grid) (n m : nat) : Prop := n < num_n g /\ m < num_m g.

(** A user sees the same grid: size and visible nodes. *)
Definition same_view (g h : grid) : Prop :=
  num_n g = num_n h /\ num_m g = num_m h /\ forall n m, n < num_n g -> m < num_m g -> vis g n m = vis h n m.

(** All four corners of the cell with lowest corner (n, m) are there. *)
Definition complete (g : grid) (n m : nat) : Prop :=
  n + 1 < num_n g /\ m + 1 < num_m g /\
  is_valid (vis g n m) = true /\ is_valid (vis g n (m + 1)) = true /\
  is_valid (vis g (n + 1) m) = true /\ is_valid (vis g (n + 1) (m + 1)) = true.

(** The corners of a cell. *)
Definition corner_of (n m i j : nat) : Prop := (i = n \/ i = n + 1) /\ (j = m \/ j = m + 1).

(** Node (i, j) belongs to a complete cell. *)
Definition in_cell (g : grid) (i j : nat) : Prop := exists n m, complete g n m /\ corner_of n m i j.

(** A grid without stray nodes: every valid node belongs to a complete cell. *)
Definition clean (g : grid) : Prop := forall i j, shown g i j -> is_valid (vis g i j) = true -> in_cell g i j.

(** No node is missing. *)
Definition full (g : grid) : Prop := forall i j, shown g i j -> is_valid (vis g i j) = true.

(** Hidden lines hold no valid nodes. *)
Definition hidden_missing (g : grid) : Prop :=
  forall a b, a < mrows (gnodes g) -> b < mcols (gnodes g) ->
    ~ (start_n g <= a < start_n g + num_n g /\ start_m g <= b < start_m g + num_m g) -> is_valid (entry (gnodes g) a b) = false.

(** The type of a node, from the cells around it that are complete: top right, top left, bottom left, bottom right. *)
Inductive type_of : bool -> bool -> bool -> bool -> node_type -> Prop :=
| all_around : type_of true true true true InternalValid
| side_bottom : type_of true true false false Bottom
| side_left : type_of true false false true LeftType
| side_up : type_of false false true true Up
| side_right : type_of false true true false RightType
| corner_bl : type_of true false false false BottomLeft
| corner_br : type_of false true false false BottomRight
| corner_ur : type_of false false true false UpperRight
| corner_ul : type_of false false false true UpperLeft
| hollow_bl : type_of false true true true BottomLeft
| hollow_br : type_of true false true true BottomRight
| hollow_ur : type_of true true false true UpperRight
| hollow_ul : type_of true true true false UpperLeft
| diagonal_up : type_of true false true false Invalid
| diagonal_down : type_of false true false true Invalid
| no_cell : type_of false false false false Invalid.

(** [b] says whether the cell whose lowest corner is one below (n, m) in the directions given is complete. *)
Definition cell_at (g : grid) (n m dn dm : nat) (b : bool) : Prop :=
  b = true <-> dn <= n /\ dm <= m /\ complete g (n - dn) (m - dm).

(** The node is a corner of a cell whose four corners are all [inside]. *)
Definition in_inside_cell (g : grid) (inside : point -> bool) (i j : nat) : Prop :=
  exists n m, n + 1 < num_n g /\ m + 1 < num_m g /\ corner_of n m i j /\
    forall a b, corner_of n m a b -> inside (vis g a b) = true.

(** Neighbours on a grid line. *)
Definition neighbours (a b : nat * nat) : Prop :=
  (fst a = fst b /\ (snd b = snd a + 1 \/ snd a = snd b + 1)) \/ (snd a = snd b /\ (fst b = fst a + 1 \/ fst a = fst b + 1)).

(** Number of a node, row by row. *)
Definition number (g : grid) (nm : nat * nat) : nat := fst nm * num_m g + snd nm.

(** Undo followed by redo, k times. *)
Fixpoint undo_redo (k : nat) (u : gact) (g : grid) : outcome (gact * grid) :=
  match k with
  | 0 => Ok (u, g)
  | S k => let! (u1, g1) := undo_grid u g in let! (u2, g2) := redo_grid u1 g1 in undo_redo k u2 g2
  end.

(** [u] undoes the change from [g] to [h], and redoes it, any number of times. *)
Definition reversible (u : gact) (g h : grid) : Prop :=
  forall k, exists u' h', undo_redo k u h = Ok (u', h') /\ same_view h h' /\
    exists u'' g', undo_grid u' h' = Ok (u'', g') /\ same_view g g'.

(** *** Faces added at the boundary: the line of kind [t] is added on one side of the grid *)

(** The neighbour of a node away from that side. *)
Definition inward (t : line_type) (a : nat * nat) : nat * nat :=
  match t with
  | LineBottom => (fst a + 1, snd a) | LineTop => (fst a - 1, snd a) | LineLeft => (fst a, snd a + 1) | LineRight => (fst a, snd a - 1)
  end.

(** [q] mirrored in [p]. *)
Definition mirrored (p q : point) : point := Pt (fsub (fmul (px p) (double_of 2 0)) (px q)) (fsub (fmul (py p) (double_of 2 0)) (py q)).

(** Where a node of the old grid is in the new grid, in which [s] lines (0 or 1) were added. *)
Definition shift (t : line_type) (s : nat) (a : nat * nat) : nat * nat :=
  match t with LineBottom => (fst a + s, snd a) | LineLeft => (fst a, snd a + s) | _ => a end.

(** Its neighbour towards that side, in the new grid. *)
Definition outward (t : line_type) (s : nat) (a : nat * nat) : nat * nat :=
  match t with
  | LineBottom => (fst a + s - 1, snd a) | LineTop => (fst a + 1, snd a)
  | LineLeft => (fst a, snd a + s - 1) | LineRight => (fst a, snd a + 1)
  end.

Definition lines_n (t : line_type) (s : nat) : nat := match t with LineBottom | LineTop => s | _ => 0 end.
Definition lines_m (t : line_type) (s : nat) : nat := match t with LineLeft | LineRight => s | _ => 0 end.

(** A node on the first or last line of that side. *)
Definition at_side (g : grid) (t : line_type) (a : nat * nat) : Prop :=
  match t with
  | LineBottom => fst a = 0 | LineTop => fst a + 1 = num_n g | LineLeft => snd a = 0 | LineRight => snd a + 1 = num_m g
  end.

Definition vis2 (g : grid) (a : nat * nat) : point := vis g (fst a) (snd a).
Definition shown2 (g : grid) (a : nat * nat) : Prop := shown g (fst a) (snd a).

(** *** Refinement *)

(** Line [i] of the grid without the lines strictly between [lo] and [hi] is this line of the grid. *)
Definition kept (lo hi i : nat) : nat := if i <=? lo then i else i + (hi - lo - 1).

(** Position of line [n] when the cells [lo, hi) are divided in [r]. *)
Definition moved (lo hi r n : nat) : nat := n + (r - 1) * (min n hi - lo).

(** The local grid of a complete cell has the corners of the cell as corners: [p] by [q] cells. *)
Definition corners_kept (g : grid) (n m p q : nat) (local : nat -> nat -> point) : Prop :=
  local 0 0 = vis g n m /\ local 0 q = vis g n (m + 1) /\ local p 0 = vis g (n + 1) m /\ local p q = vis g (n + 1) (m + 1).

Definition no_hidden (g : grid) : Prop := start_n g = 0 /\ start_m g = 0 /\ end_n g = 0 /\ end_m g = 0.

(** *** Sequences of adding lines, recomputing node types, undo and redo *)
Inductive gop := OpAdd (a b : nat * nat) | OpTypes | OpUndo | OpRedo.
Record history := History { h_grid : grid; h_undo : list gact; h_redo : list gact }.

(** The kernel's undo stack around one grid: an edit that fails changes nothing, one without undo action is not recorded. *)
Definition history_step (junk : nat -> nat -> point) (op : gop) (h : history) : outcome history :=
  match op with
  | OpAdd a b =>
      match add_grid_line junk (h_grid h) a b with
      | Ok (g, Some u) => Ok (History g (u :: h_undo h) [])
      | Ok (g, None) => Ok (History g (h_undo h) (h_redo h))
      | Throw _ => Ok h
      | UB => UB
      end
  | OpTypes => let! g := compute_node_types (h_grid h) in Ok (History g (h_undo h) (h_redo h))
  | OpUndo =>
      match h_undo h with
      | [] => Ok h
      | u :: us => let! (u', g) := undo_grid u (h_grid h) in Ok (History g us (u' :: h_redo h))
      end
  | OpRedo =>
      match h_redo h with
      | [] => Ok h
      | r :: rs => let! (r', g) := redo_grid r (h_grid h) in Ok (History g (r' :: h_undo h) rs)
      end
  end.

(** What a user expects to see: earlier grids, the present one, and those undone. *)
Definition expected := (list grid * grid * list grid)%type.
Definition expect (op : gop) (h h' : history) (e : expected) : expected :=
  match op, e with
  | OpAdd _ _, (past, now, future) => if length (h_undo h) <? length (h_undo h') then (now :: past, h_grid h', []) else e
  | OpUndo, (p :: past, now, future) => (past, p, now :: future)
  | OpRedo, (past, now, f :: future) => (now :: past, f, future)
  | _, _ => e
  end.
Fixpoint run_history (junk : nat -> nat -> point) (ops : list gop) (h : history) (e : expected) : outcome (history * expected) :=
  match ops with
  | [] => Ok (h, e)
  | op :: ops => let! h' := history_step junk op h in run_history junk ops h' (expect op h h' e)
  end.

(** *** Boundaries *)

(** The edge is a side of the cell with lowest corner (n, m); edges are pairs of positions, the smaller first. *)
Definition side (n m : nat) (e : (nat * nat) * (nat * nat)) : Prop :=
  e = ((n, m), (n, m + 1)) \/ e = ((n + 1, m), (n + 1, m + 1)) \/ e = ((n, m), (n + 1, m)) \/ e = ((n, m + 1), (n + 1, m + 1)).

(** Cells of the block with corners [ll] and [ur]. *)
Definition cell_in_block (ll ur : nat * nat) (n m : nat) : Prop := fst ll <= n /\ n + 1 <= fst ur /\ snd ll <= m /\ m + 1 <= snd ur.

(** The edge between two positions of a grid line. *)
Definition between (a b : nat * nat) : (nat * nat) * (nat * nat) :=
  if (fst a + snd a <=? fst b + snd b) then (a, b) else (b, a).

(** The edges walked along by a list of positions. *)
Fixpoint walk_edges (l : list (nat * nat)) : list ((nat * nat) * (nat * nat)) :=
  match l with
  | a :: (b :: _) as t => between a b :: walk_edges t
  | _ => []
  end.

(** A polygon: ends where it starts, is not there in between, and has at least three sides. *)
Definition closed_walk (l : list (nat * nat)) : Prop :=
  exists a t, l = a :: t ++ [a] /\ ~ In a t /\ 2 <= length t.

(** Lists of points, one after the other with a missing point between them. *)
Definition with_separators (l : list (list point)) : list point :=
  match l with [] => [] | p :: t => p ++ flat_map (fun q => missing_point :: q) t end.
