(** What the properties of moving the nodes of a grid are stated with. *)
From Verif Require Import Base FloatModel UtilModel UndoModel ActionModel GridModel GridSpec GridMoveModel.

(** Points, coordinate by coordinate in binary64. *)
Definition lift2 (f : double -> double -> double) (p q : point) : point := Pt (f (px p) (px q)) (f (py p) (py q)).
Definition times (a : double) (p : point) : point := Pt (fmul (px p) a) (fmul (py p) a).
Notation "p +. q" := (lift2 fadd p q) (at level 50, left associativity).
Notation "p -. q" := (lift2 fsub p q) (at level 50, left associativity).
Definition frac (a b : Z) : double := fdiv (double_of a 0) (double_of b 0).

(** *** Lines *)
Definition straight (a b : gindex) : Prop := fst a = fst b \/ snd a = snd b.
(** A line from [s] to [e], [s] first. *)
Definition proper (l : gline) : Prop :=
  straight (l_start l) (l_end l) /\ fst (l_start l) <= fst (l_end l) /\ snd (l_start l) <= snd (l_end l) /\ l_start l <> l_end l.
Definition covers (l : gline) (c : gindex) : Prop :=
  fst (l_start l) <= fst c <= fst (l_end l) /\ snd (l_start l) <= snd c <= snd (l_end l).
(** The line between two nodes, in order. *)
Definition line_of (a b : gindex) : gline := GLine (min (fst a) (fst b), min (snd a) (snd b)) (max (fst a) (fst b), max (snd a) (snd b)).
(** Two lines in different directions. *)
Definition perpendicular (k l : gline) : Prop :=
  (fst (l_start k) = fst (l_end k) /\ snd (l_start l) = snd (l_end l)) \/ (snd (l_start k) = snd (l_end k) /\ fst (l_start l) = fst (l_end l)).

(** The lines set one after the other, from none; a line that is refused leaves them as they are. *)
Definition set_lines (g : grid) (l : list (gindex * gindex)) : list gline :=
  fold_left (fun ls ab => match set_line g ls (fst ab) (snd ab) with Ok ls => ls | _ => ls end) l [].

(** *** The grid before and after *)
Definition in_box (a b c : gindex) : Prop := fst a <= fst c <= fst b /\ snd a <= snd c <= snd b.
(** [h] has the size of [g], and its nodes outside [P]. *)
Definition only_within (P : gindex -> Prop) (g h : grid) : Prop :=
  num_n h = num_n g /\ num_m h = num_m g /\ forall c, shown2 g c -> ~ P c -> vis2 h c = vis2 g c.
(** The same nodes are valid. *)
Definition same_valid (g h : grid) : Prop :=
  num_n h = num_n g /\ num_m h = num_m g /\ forall c, shown2 g c -> is_valid (vis2 h c) = is_valid (vis2 g c).

(** [u] brings [g] back from [h]. *)
Definition undone (u : gact) (g h : grid) : Prop := exists u' k, undo_grid u h = Ok (u', k) /\ same_view g k.

(** Which of the four cells around a node are complete: top right, top left, bottom left, bottom right. *)
Definition around (g : grid) (c : gindex) (tr tl bl br : bool) : Prop :=
  cell_at g (fst c) (snd c) 0 0 tr /\ cell_at g (fst c) (snd c) 1 0 tl /\ cell_at g (fst c) (snd c) 1 1 bl /\ cell_at g (fst c) (snd c) 0 1 br.

(** *** Smoothing *)
Section Smoothing.
  Variable project : point -> point -> point -> point * double * bool.

  (** [r] is the projection of [p] on the two segments from [here]. *)
  Inductive on_side (here a b p : point) : point -> Prop :=
  | first_only p1 r1 p2 r2 : project here a p = (p1, r1, true) -> project here b p = (p2, r2, false) -> on_side here a b p p1
  | second_only p1 r1 p2 r2 : project here a p = (p1, r1, false) -> project here b p = (p2, r2, true) -> on_side here a b p p2
  | both_second p1 r1 p2 r2 : project here a p = (p1, r1, true) -> project here b p = (p2, r2, true) -> SFltb r1 r2 = true -> on_side here a b p p2
  | both_first p1 r1 p2 r2 : project here a p = (p1, r1, true) -> project here b p = (p2, r2, true) -> SFltb r1 r2 = false -> on_side here a b p p1
  | neither p1 r1 p2 r2 : project here a p = (p1, r1, false) -> project here b p = (p2, r2, false) ->
      on_side here a b p (times (frac 1 2) (p1 +. p2)).

  (** Half of the node, half of the mean of its neighbours. *)
  Definition inner_mean (c w e s o : point) : point :=
    times (frac 1 2) c +. times (frac 1 2) (times (frac 1 4) (w +. e)) +. times (frac 1 2) (times (frac 1 4) (s +. o)).
  Definition side_mean (c a b i : point) : point := times (frac 1 2) c +. times (frac 1 2) (times (frac 1 3) (a +. b +. i)).

  (** The new position [p] of node (n, m) of [x], by the cells around it. *)
  Inductive smoothed (x : grid) (n m : nat) : bool -> bool -> bool -> bool -> point -> Prop :=
  | sm_inner : smoothed x n m true true true true
      (inner_mean (vis x n m) (vis x (n - 1) m) (vis x (n + 1) m) (vis x n (m - 1)) (vis x n (m + 1)))
  | sm_bottom p : on_side (vis x n m) (vis x (n - 1) m) (vis x (n + 1) m)
        (side_mean (vis x n m) (vis x (n - 1) m) (vis x (n + 1) m) (vis x n (m + 1))) p -> smoothed x n m true true false false p
  | sm_up p : on_side (vis x n m) (vis x (n - 1) m) (vis x (n + 1) m)
        (side_mean (vis x n m) (vis x (n - 1) m) (vis x (n + 1) m) (vis x n (m - 1))) p -> smoothed x n m false false true true p
  | sm_left p : on_side (vis x n m) (vis x n (m - 1)) (vis x n (m + 1))
        (side_mean (vis x n m) (vis x n (m - 1)) (vis x n (m + 1)) (vis x (n + 1) m)) p -> smoothed x n m true false false true p
  | sm_right p : on_side (vis x n m) (vis x n (m - 1)) (vis x n (m + 1))
        (side_mean (vis x n m) (vis x n (m - 1)) (vis x n (m + 1)) (vis x (n - 1) m)) p -> smoothed x n m false true true false p
  | sm_other tr tl bl br :
      ~ In (tr, tl, bl, br) [(true, true, true, true); (true, true, false, false); (false, false, true, true);
                             (true, false, false, true); (false, true, true, false)] ->
      smoothed x n m tr tl bl br (vis x n m).

  (** One pass over the block, on grid [x]; the cells are those of the grid at the start. *)
  Definition smooth_pass (g : grid) (ll ur : gindex) (x y : grid) : Prop :=
    only_within (in_box ll ur) x y /\
    forall c tr tl bl br, shown2 g c -> in_box ll ur c -> around g c tr tl bl br -> smoothed x (fst c) (snd c) tr tl bl br (vis2 y c).
End Smoothing.

(** [k] passes from [x] to [y] *)
Inductive passes (P : grid -> grid -> Prop) : nat -> grid -> grid -> Prop :=
| pass_none x : passes P 0 x x
| pass_one k x y z : P x y -> passes P k y z -> passes P (S k) x z.

(** *** Distances from the line *)
Section Factors.
  Variable fade : nat -> nat -> double.
  Variable distance : projection -> point -> point -> double.

  (** The factor of a node [x] across a line at [y] in a block from [lo] to [hi]: from 1 at the line to the block's border. *)
  Inductive faded (x y lo hi : nat) : double -> Prop :=
  | fade_after : y < x -> y < hi -> faded x y lo hi (fade (x - y) (hi - y))
  | fade_before : x <= y -> lo < y -> faded x y lo hi (fade (y - x) (y - lo))
  | fade_border_hi : y < x -> hi <= y -> faded x y lo hi (frac 1 1)
  | fade_border_lo : x <= y -> y <= lo -> faded x y lo hi (frac 1 1).
  (** Coordinate across and along a line *)
  Definition coord_across (l : gline) (c : gindex) : nat := if snd (l_start l) =? snd (l_end l) then snd c else fst c.
  Definition coord_along (l : gline) (c : gindex) : nat := if snd (l_start l) =? snd (l_end l) then fst c else snd c.
  Definition factor_of (l : gline) (ll ur c : gindex) (f : double) : Prop :=
    faded (coord_across l c) (coord_across l (l_start l)) (coord_across l ll) (coord_across l ur) f.
  (** The nodes along the whole line, and across as far as the block goes. *)
  Definition beside (l : gline) (ll ur c : gindex) : Prop :=
    coord_along l (l_start l) <= coord_along l c <= coord_along l (l_end l) /\ coord_across l ll <= coord_across l c <= coord_across l ur.
  Definition flat (l : gline) (ll ur : gindex) : Prop := coord_across l ll = coord_across l ur.
  (** Neighbours along the line *)
  Definition next_along (l : gline) (c : gindex) : gindex := if snd (l_start l) =? snd (l_end l) then (fst c + 1, snd c) else (fst c, snd c + 1).
  Definition prev_along (l : gline) (c : gindex) : gindex := if snd (l_start l) =? snd (l_end l) then (fst c - 1, snd c) else (fst c, snd c - 1).

  (** *** Directional smoothing: the node moves towards its farther neighbour along the line *)
  Definition len2 (p : point) : double := fadd (fmul (px p) (px p)) (fmul (py p) (py p)).
  Inductive slid (f : double) (c a b : point) : point -> Prop :=
  | slid_to la lb w t : la = len2 (c -. a) -> lb = len2 (c -. b) ->
      (t = a /\ SFltb lb la = true \/ t = b /\ SFltb lb la = false) ->
      (let most := if SFltb la lb then lb else la in
       (SFltb most (frac 1 100000000) = true /\ w = frac 1 2) \/
       (SFltb most (frac 1 100000000) = false /\ w = fdiv (fmul (fmul f (frac 1 2)) (fmul (SFabs (fsub lb la)) (frac 1 2))) most)) ->
      slid f c a b (c +. times w (t -. c)).
  (** By the cells around: the node has both neighbours along the line in cells on the same side. *)
  Definition slides (l : gline) (tr tl bl br : bool) : bool :=
    if snd (l_start l) =? snd (l_end l) then (tr && tl && bl && br) || (tr && tl && negb bl && negb br) || (negb tr && negb tl && bl && br)
    else (tr && tl && bl && br) || (tr && negb tl && negb bl && br) || (negb tr && tl && bl && negb br).
  Definition slide_pass (g : grid) (l : gline) (ll ur : gindex) (x y : grid) : Prop :=
    only_within (beside l ll ur) x y /\
    forall c tr tl bl br, shown2 g c -> beside l ll ur c -> around g c tr tl bl br ->
      if slides l tr tl bl br
      then exists f, factor_of l ll ur c f /\ slid f (vis2 x c) (vis2 x (prev_along l c)) (vis2 x (next_along l c)) (vis2 y c)
      else vis2 y c = vis2 x c.

  (** *** Displacements in the frame of the grid line through a node (its neighbours in n) *)
  Definition neighbour (g : grid) (c d : gindex) : bool := (fst d <? num_n g) && (snd d <? num_m g) && is_valid (vis2 g d) && negb (index_same c d).
  Definition east (g : grid) (c : gindex) : point := if neighbour g c (fst c + 1, snd c) then vis2 g (fst c + 1, snd c) else vis2 g c.
  Definition west (g : grid) (c : gindex) : point := if neighbour g c (fst c - 1, snd c) then vis2 g (fst c - 1, snd c) else vis2 g c.
  Definition axis (g : grid) (c : gindex) : point := east g c -. west g c.
  Definition axis_length (g : grid) (c : gindex) : double := distance Cartesian (east g c) (west g c).
  (** [d] in the frame, and back *)
  Definition into_frame (g : grid) (c : gindex) (d : point) : point :=
    if SFltb (frac 0 1) (axis_length g c)
    then Pt (fdiv (fadd (fmul (px d) (px (axis g c))) (fmul (py d) (py (axis g c)))) (axis_length g c))
            (fdiv (fsub (fmul (py d) (px (axis g c))) (fmul (px d) (py (axis g c)))) (axis_length g c))
    else Pt (frac 0 1) (frac 0 1).
  Definition out_of_frame (g : grid) (c : gindex) (d : point) : point :=
    if SFltb (frac 0 1) (axis_length g c)
    then Pt (fdiv (fsub (fmul (px d) (px (axis g c))) (fmul (py d) (py (axis g c)))) (axis_length g c))
            (fdiv (fadd (fmul (px d) (py (axis g c))) (fmul (py d) (px (axis g c)))) (axis_length g c))
    else Pt (frac 0 1) (frac 0 1).

  (** *** Attraction *)

  (** The mean of the lengths of the edges along the line at a node. *)
  Inductive mean_edge (g : grid) (l : gline) (c : gindex) : double -> Prop :=
  | mean_none : neighbour g c (prev_along l c) = false -> neighbour g c (next_along l c) = false -> mean_edge g l c (frac 0 1)
  | mean_prev : neighbour g c (prev_along l c) = true -> neighbour g c (next_along l c) = false ->
      mean_edge g l c (fdiv (fadd (distance Cartesian (vis2 g c) (vis2 g (prev_along l c))) (frac 0 1)) (frac 1 1))
  | mean_next : neighbour g c (prev_along l c) = false -> neighbour g c (next_along l c) = true ->
      mean_edge g l c (fdiv (fadd (frac 0 1) (distance Cartesian (vis2 g c) (vis2 g (next_along l c)))) (frac 1 1))
  | mean_both : neighbour g c (prev_along l c) = true -> neighbour g c (next_along l c) = true ->
      mean_edge g l c (fdiv (fadd (distance Cartesian (vis2 g c) (vis2 g (prev_along l c))) (distance Cartesian (vis2 g c) (vis2 g (next_along l c)))) (frac 2 1)).

  (** Towards the line: up from below it, down from above it. *)
  Definition towards (l : gline) (c : gindex) : double := if coord_across l c <? coord_across l (l_start l) then frac 1 1 else frac (-1) 1.
  Definition attracted (factor : double) (g : grid) (l : gline) (ll ur c : gindex) (p : point) : Prop :=
    exists len f, mean_edge g l c len /\ factor_of l ll ur c f /\
      let d := fmul (fmul (fmul len factor) f) (towards l c) in
      p = vis2 g c +. out_of_frame g c (if snd (l_start l) =? snd (l_end l) then Pt (frac 0 1) d else Pt d (frac 0 1)).
End Factors.

(** Two grids that show the same. *)
Definition plain_copy (g : grid) : Prop := start_n g = 0 /\ start_m g = 0.

(** *** Shifting a line *)

(** Where a node is moved to, at last. *)
Definition moved_to (moves : list (gindex * point)) (c : gindex) : option point :=
  fold_left (fun a mv => if index_same (fst mv) c then Some (snd mv) else a) moves None.
Definition now (moves : list (gindex * point)) (g : grid) (c : gindex) : point :=
  match moved_to moves c with Some p => p | None => vis2 g c end.
Definition at_coord (l : gline) (j : nat) : gindex := if snd (l_start l) =? snd (l_end l) then (j, snd (l_start l)) else (fst (l_start l), j).
(** How far node [j] of the line was moved by hand. *)
Definition delta (moves : list (gindex * point)) (g : grid) (l : gline) (j : nat) : point := now moves g (at_coord l j) -. vis2 g (at_coord l j).
Definition stays (d : point) : bool := SFltb (SFabs (px d)) (frac 1 100000) && SFltb (SFabs (py d)) (frac 1 100000).

(** [i0] and [i] are the moved nodes (or ends of the line) around node [j]. *)
Definition segment (moves : list (gindex * point)) (g : grid) (l : gline) (i0 i j : nat) : Prop :=
  let first := coord_along l (l_start l) in let last := coord_along l (l_end l) in
  first <= i0 < i /\ i <= last /\ (i0 = first \/ stays (delta moves g l i0) = false) /\ (i = last \/ stays (delta moves g l i) = false) /\
  (forall k, i0 < k < i -> stays (delta moves g l k) = true) /\ (i0 <= j < i \/ j = i /\ i = last).
(** Node [j] between them: the deltas are interpolated. *)
Definition interpolated (moves : list (gindex * point)) (g : grid) (l : gline) (i0 i j : nat) : point :=
  let f := frac (Z.of_nat (j - i0)) (Z.of_nat (i - i0)) in
  vis2 g (at_coord l j) +. times (fsub (frac 1 1) f) (delta moves g l i0) +. times f (delta moves g l i).

(** Node [c] beside the line: the displacement of the line's node fades away across the block. *)
Definition dragged (fade : nat -> nat -> double) (distance : projection -> point -> point -> double)
    (g : grid) (l : gline) (ll ur c : gindex) (p q : point) : Prop :=
  exists f, factor_of fade l ll ur c f /\
    let base := at_coord l (coord_along l c) in
    q = vis2 g c +. out_of_frame distance g c (times f (into_frame distance g base (p -. vis2 g base))).

(** The nodes of the block's lines across. *)
Definition level (l : gline) (ll ur c : gindex) : Prop := coord_across l ll <= coord_across l c <= coord_across l ur.
Definition along (l : gline) (c : gindex) : Prop := coord_along l (l_start l) <= coord_along l c <= coord_along l (l_end l).

(** Undoing a list of actions, the last first. *)
Fixpoint undo_all (l : list gact) (g : grid) : outcome grid :=
  match l with [] => Ok g | a :: l => let! (_, g) := undo_grid a g in undo_all l g end.

(** *** Snapping *)

Definition lowest (l : list gindex) : gindex := match l with [] => (0, 0) | a :: l => fold_left (fun a b => (min (fst a) (fst b), min (snd a) (snd b))) l a end.
Definition highest (l : list gindex) : gindex := match l with [] => (0, 0) | a :: l => fold_left (fun a b => (max (fst a) (fst b), max (snd a) (snd b))) l a end.

Definition near (k x y : nat) : Prop := x <= y + k /\ y <= x + k.
(** The nodes that follow node [a] of the line or block from [s] to [e]: at most [k] lines away across it, between [lo] and [hi]. *)
Definition follows (k : nat) (lo hi s e a c : gindex) : Prop :=
  (if snd s =? snd e then fst c = fst a else near k (fst a) (fst c) /\ fst lo <= fst c <= fst hi) /\
  (if fst s =? fst e then snd c = snd a else near k (snd a) (snd c) /\ snd lo <= snd c <= snd hi).
(** With two control points 80 lines on either side, with more the box around all of them (10000 lines at most). *)
Definition snap_reach (g : grid) (points : list gindex) (a c : gindex) : Prop :=
  let s := lowest (firstn 2 points) in let e := highest (firstn 2 points) in
  match points with
  | [_; _] => follows 80 (0, 0) (num_n g - 1, num_m g - 1) s e a c
  | _ => follows (100 * 100) (lowest points) (highest points) s e a c
  end.
Definition snap_line (points : list gindex) (a : gindex) : Prop := in_box (lowest (firstn 2 points)) (highest (firstn 2 points)) a.

(** The order of the loops: along n first. *)
Definition earlier (a b : gindex) : Prop := snd a < snd b \/ snd a = snd b /\ fst a < fst b.

(** Where node [c] that follows node [a] of the line is at the end, in [h]. *)
Definition snapped (nearest : point -> point) (expansion : point -> gindex -> gindex -> double) (close : point -> point -> bool) (g h : grid) (a c : gindex) : Prop :=
  let p := vis2 g a in let q := nearest p in
  if is_valid p then
    if close p q then (c = a -> vis2 h c = q) /\ (c <> a -> vis2 h c = vis2 g c)
    else if is_valid (vis2 g c) then
      exists r, (earlier a c -> r = vis2 h a) /\ (~ earlier a c -> r = q) /\
        let f := expansion r a c in
        if SFltb (frac 0 1) f then vis2 h c = vis2 g c +. times f (q -. p)
        else (c = a -> vis2 h c = q) /\ (c <> a -> vis2 h c = vis2 g c)
    else vis2 h c = vis2 g c
  else vis2 h c = vis2 g c.

(** *** Mirroring a line *)

(** The point [p] plus [f] times the step from [q] to [p]. *)
Definition blended (f : double) (p q : point) : point := times (fadd (frac 1 1) f) p +. times (SFopp f) q.
