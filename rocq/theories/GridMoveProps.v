(** Properties C93 to C99: moving the nodes of a curvilinear grid. *)
From Verif Require Import Base FloatModel UtilModel UndoModel ActionModel GridModel GridSpec GridWitness GridMoveModel GridMoveSpec GridMoveProofs GridMoveSmooth GridMoveAttract GridMoveShift GridMoveSnap GridMoveMirror GridMoveWitness.

(** C93: a line that is accepted joins two different nodes of the grid on one grid line, in order, and has no node in common with a line in the other direction. *)
Theorem C93_accepted : forall g ls a b ls', Forall proper ls -> set_line g ls a b = Ok ls' ->
  shown2 g a /\ shown2 g b /\ a <> b /\ straight a b /\ ls' = ls ++ [line_of a b] /\ Forall proper ls' /\
  forall l, In l ls -> perpendicular (line_of a b) l -> ~ exists c, covers (line_of a b) c /\ covers l c.
Proof. exact set_line_ok. Qed.
Theorem C93_refused : forall g ls a b, Forall proper ls -> shown2 g a -> shown2 g b ->
  (a = b \/ ~ straight a b \/ (straight a b /\ exists l, In l ls /\ perpendicular (line_of a b) l /\ exists c, covers (line_of a b) c /\ covers l c)) ->
  set_line g ls a b = Throw AlgorithmErr.
Proof. exact set_line_refused. Qed.
Theorem C93_apart : forall g l, let ls := set_lines g l in Forall proper ls /\
  forall i j k m, nth_error ls i = Some k -> nth_error ls j = Some m -> i <> j -> perpendicular k m -> ~ exists c, covers k c /\ covers m c.
Proof. exact set_lines_apart. Qed.
Example C93_example : set_lines wide [((1, 1), (6, 1)); ((3, 3), (3, 0)); ((2, 5), (2, 2)); ((3, 3), (4, 4))] = [GLine (1, 1) (6, 1); GLine (2, 2) (2, 5)].
Proof. exact lines_set. Qed.
(** A line beside another one, without a node in common, is refused. *)
Theorem C93_parallel_refuted : exists g l a b, gwf g /\ full g /\ proper l /\ shown2 g a /\ shown2 g b /\ straight a b /\ a <> b /\
  ~ perpendicular (line_of a b) l /\ (forall c, covers (line_of a b) c -> ~ covers l c) /\ set_line g [l] a b = Throw AlgorithmErr.
Proof. exact parallel_refused. Qed.
(** A line over part of another one is accepted. *)
Theorem C93_overlap_refuted : exists g l a b ls, gwf g /\ full g /\ proper l /\ (exists c, covers (line_of a b) c /\ covers l c) /\ set_line g [l] a b = Ok ls.
Proof. exact overlap_accepted. Qed.

(** C94: every pass of the smoothing moves the nodes of the block as the cells around them say, all from the positions before the pass; nothing else moves, and the moves can be undone. *)
Theorem C94_smoothed : forall project k ll ur g, gwf g -> clean g -> plain_copy g -> shown2 g ur -> exists x h u,
  smooth project k ll ur g = Ok (h, u) /\ same_view g x /\ passes (smooth_pass project g ll ur) k x h /\
  only_within (in_box ll ur) g h /\ undone u g h /\ (clean h -> reversible u g h).
Proof. exact smooth_ok. Qed.
Example C94_example : gwf open_grid /\ clean open_grid /\ plain_copy open_grid /\ shown2 open_grid (4, 4) /\
  exists h u, smooth keep_there 2 (0, 0) (4, 4) open_grid = Ok (h, u) /\ moved_at open_grid h 1 2 = true.
Proof. exact smooth_moves. Qed.
(** Lines that were removed before change the result. *)
Theorem C94_hidden_refuted : exists project g g' ll ur h h' u u', gwf g /\ clean g /\ gwf g' /\ clean g' /\ hidden_missing g' /\ same_view g g' /\ shown2 g ur /\
  smooth project 1 ll ur g = Ok (h, u) /\ smooth project 1 ll ur g' = Ok (h', u') /\ ~ same_view h h'.
Proof. exact smooth_hidden_refuted. Qed.

(** C95: every pass of the directional smoothing moves the nodes beside the line along it, towards their farther neighbour; the grid that is installed has those nodes. *)
Theorem C95_slid : forall fade k l rest ll ur g, gwf g -> clean g -> plain_copy g -> shown2 g (l_start l) -> shown2 g (l_end l) -> shown2 g ur ->
  fst ll <= fst ur -> snd ll <= snd ur -> ~ flat l ll ur -> exists x h c,
  smooth_directional fade k (l :: rest) ll ur g = Ok (h, c) /\ same_view g x /\ passes (slide_pass fade g l ll ur) k x h /\ only_within (beside l ll ur) g h /\
  (no_hidden h -> gwf h -> same_view h c).
Proof. exact directional_whole. Qed.
Theorem C95_refused : forall fade k ll ur g, gwf g -> clean g ->
  (forall l rest, flat l ll ur -> smooth_directional fade k (l :: rest) ll ur g = Throw StdErr) /\ smooth_directional fade k [] ll ur g = Throw StdErr.
Proof. exact directional_refused. Qed.
Example C95_example : gwf open_grid /\ clean open_grid /\ plain_copy open_grid /\ shown2 open_grid (l_start cross_line) /\ shown2 open_grid (l_end cross_line) /\ shown2 open_grid (3, 3) /\
  ~ flat cross_line (1, 1) (3, 3) /\ exists h c, smooth_directional no_fade 2 [cross_line] (1, 1) (3, 3) open_grid = Ok (h, c) /\ moved_at open_grid h 2 2 = true.
Proof. exact directional_moves. Qed.
(** The grid kept for undo is the smoothed one. *)
Theorem C95_undo_refuted : exists fade g l ll ur before after, gwf g /\ full g /\ no_hidden g /\ proper l /\
  smooth_directional fade 1 [l] ll ur g = Ok (before, after) /\ ~ same_view g before.
Proof. exact directional_undo_refuted. Qed.
(** A spherical grid becomes a Cartesian one. *)
Theorem C95_projection_refuted : exists fade g l ll ur before after, gwf g /\ full g /\ no_hidden g /\
  smooth_directional fade 1 [l] ll ur g = Ok (before, after) /\ proj before = Spherical /\ proj after = Cartesian.
Proof. exact directional_projection_refuted. Qed.
(** Lines that were removed before come back. *)
Theorem C95_hidden_refuted : exists fade g l ll ur before after, gwf g /\ clean g /\ hidden_missing g /\
  smooth_directional fade 0 [l] ll ur g = Ok (before, after) /\ ~ same_view before after.
Proof. exact directional_copy_refuted. Qed.

(** C96: attraction moves every valid node beside the line, across it, by a part of the mean length of its edges that fades away towards the border of the block. *)
Theorem C96_attracted : forall fade distance factor l rest ll ur g, gwf g -> no_hidden g -> proper l -> shown2 g (l_start l) -> shown2 g (l_end l) -> shown2 g ur -> ~ flat l ll ur ->
  exists h u, attract fade distance factor (l :: rest) ll ur g = Ok (h, u) /\ only_within (beside l ll ur) g h /\
    (forall c, shown2 g c -> beside l ll ur c ->
       (is_valid (vis2 g c) = false \/ covers l c -> vis2 h c = vis2 g c) /\
       (is_valid (vis2 g c) = true -> ~ covers l c -> attracted fade distance factor g l ll ur c (vis2 h c))) /\
    (clean g -> undone u g h) /\ (clean g -> clean h -> reversible u g h).
Proof. exact attract_ok. Qed.
Theorem C96_refused : forall fade distance factor ll ur g, (forall l rest, flat l ll ur -> attract fade distance factor (l :: rest) ll ur g = Throw StdErr) /\
  attract fade distance factor [] ll ur g = Throw StdErr.
Proof. exact attract_refused. Qed.
Example C96_example : gwf open_grid /\ no_hidden open_grid /\ clean open_grid /\ proper cross_line /\ shown2 open_grid (l_start cross_line) /\ shown2 open_grid (l_end cross_line) /\ shown2 open_grid (3, 3) /\
  ~ flat cross_line (1, 1) (3, 3) /\ exists h u, attract no_fade far (double_of 1 (-1)) [cross_line] (1, 1) (3, 3) open_grid = Ok (h, u) /\ moved_at open_grid h 1 1 = true.
Proof. exact attract_moves. Qed.
(** Lines that were removed before change the result. *)
Theorem C96_hidden_refuted : exists fade distance factor l ll ur g g' h h' u u', gwf g /\ gwf g' /\ clean g' /\ hidden_missing g' /\ same_view g g' /\
  proper l /\ shown2 g ur /\ ~ flat l ll ur /\
  attract fade distance factor [l] ll ur g = Ok (h, u) /\ attract fade distance factor [l] ll ur g' = Ok (h', u') /\ ~ same_view h h'.
Proof. exact attract_hidden_refuted. Qed.

(** C97: after nodes of a line were moved, the nodes between them are interpolated, the nodes of the block beside the line follow, and everything can be undone. *)
Theorem C97_shifted : forall fade distance moves l rest ll ur g, gwf g -> no_hidden g -> proper l -> shown2 g (l_start l) -> shown2 g (l_end l) -> shown2 g ur ->
  (forall mv, In mv moves -> covers l (fst mv)) ->
  (forall j, j < coord_along l (l_start l) -> stays (vis2 g (at_coord l j) -. vis2 g (at_coord l j)) = true) ->
  exists h acts, GridMoveModel.shift fade distance moves (l :: rest) ll ur g = Ok (h, acts) /\
    only_within (fun c => along l c /\ (level l ll ur c \/ covers l c)) g h /\
    (forall j, coord_along l (l_start l) <= j <= coord_along l (l_end l) ->
       exists i0 i, segment moves g l i0 i j /\ let p := interpolated moves g l i0 i j in
         forall c, shown2 g c -> coord_along l c = j ->
           (level l ll ur c -> is_valid (vis2 g c) = true -> dragged fade distance g l ll ur c p (vis2 h c)) /\
           (~ level l ll ur c \/ is_valid (vis2 g c) = false -> covers l c -> vis2 h c = p) /\
           (~ level l ll ur c \/ is_valid (vis2 g c) = false -> ~ covers l c -> vis2 h c = vis2 g c)) /\
    (clean g -> level l ll ur (l_start l) -> (forall mv, In mv moves -> is_valid (vis2 g (fst mv)) = true /\ is_valid (snd mv) = true) ->
       exists z, undo_all (rev acts) h = Ok z /\ same_view g z).
Proof. exact shift_ok. Qed.
Theorem C97_refused : forall fade distance moves lines ll ur g mv, gwf g -> (lines = [] \/ exists l rest, lines = l :: rest /\ proper l /\ ~ covers l (fst mv)) ->
  GridMoveModel.shift fade distance (mv :: moves) lines ll ur g = Throw StdErr.
Proof. exact shift_refused. Qed.
Example C97_example : gwf plain55 /\ no_hidden plain55 /\ clean plain55 /\ proper rows /\ shown2 plain55 (l_start rows) /\ shown2 plain55 (l_end rows) /\ shown2 plain55 (4, 4) /\
  (forall mv, In mv push -> covers rows (fst mv) /\ is_valid (vis2 plain55 (fst mv)) = true /\ is_valid (snd mv) = true) /\ level rows (0, 0) (4, 4) (l_start rows) /\
  exists h u, GridMoveModel.shift no_fade far push [rows] (0, 0) (4, 4) plain55 = Ok (h, u) /\ moved_at plain55 h 1 2 = true.
Proof. exact shift_moves. Qed.
Example C97_example_before : forall j, j < coord_along short_line (l_start short_line) ->
  stays (vis2 plain55 (at_coord short_line j) -. vis2 plain55 (at_coord short_line j)) = true.
Proof. exact before_stays. Qed.
(** With the line outside the block, undoing leaves its nodes moved. *)
Theorem C97_undo_refuted : exists fade distance moves l ll ur g h acts z, gwf g /\ full g /\ no_hidden g /\ proper l /\ shown2 g (l_start l) /\ shown2 g (l_end l) /\ shown2 g ur /\
  (forall mv, In mv moves -> covers l (fst mv) /\ is_valid (snd mv) = true) /\
  GridMoveModel.shift fade distance moves [l] ll ur g = Ok (h, acts) /\ undo_all (rev acts) h = Ok z /\ ~ same_view g z.
Proof. exact shift_undo_refuted. Qed.
(** A missing node of the line gets a position. *)
Theorem C97_missing_refuted : exists fade distance moves l ll ur g h acts c, gwf g /\ no_hidden g /\ proper l /\ covers l c /\ is_valid (vis2 g c) = false /\
  GridMoveModel.shift fade distance moves [l] ll ur g = Ok (h, acts) /\ is_valid (vis2 h c) = true.
Proof. exact shift_missing_refuted. Qed.

(** C98: mirroring a line at a side of a full grid adds one line, keeps the nodes, and places the new nodes by the line and the one behind it. *)
Theorem C98_mirrored : forall junk factor l rest t g, gwf g -> full g -> hidden_missing g ->
  (start_n g = 0 \/ 0 < end_n g) /\ (start_m g = 0 \/ 0 < end_m g) ->
  SFleb factor (frac 0 1) = false -> proper l -> shown2 g (l_start l) -> shown2 g (l_end l) -> at_side g t (l_start l) -> at_side g t (l_end l) ->
  (t = LineLeft -> coord_along l (l_start l) <= num_m g) ->
  exists h u, mirror junk factor (l :: rest) g = Ok (h, u) /\
    num_n h = num_n g + lines_n t 1 /\ num_m h = num_m g + lines_m t 1 /\
    (forall c, shown2 g c -> vis2 h (GridSpec.shift t 1 c) = vis2 g c) /\
    (forall c, covers l c -> vis2 h (outward t 1 c) = blended factor (vis2 g c) (vis2 g (inward t c))) /\
    (forall a, shown2 h a -> (forall c, shown2 g c -> a <> GridSpec.shift t 1 c) -> (forall c, covers l c -> a <> outward t 1 c) -> is_valid (vis2 h a) = false) /\
    (t <> LineLeft -> undone u g h).
Proof. exact mirror_ok. Qed.
Theorem C98_refused : forall junk factor lines g, SFleb factor (frac 0 1) = true \/ lines = [] \/ num_n g <= 1 \/ num_m g <= 1 -> mirror junk factor lines g = Throw StdErr.
Proof. exact mirror_refused. Qed.
Example C98_example : gwf plain55 /\ full plain55 /\ hidden_missing plain55 /\ proper (GLine (1, 4) (3, 4)) /\ shown2 plain55 (1, 4) /\ shown2 plain55 (3, 4) /\
  at_side plain55 LineRight (1, 4) /\ at_side plain55 LineRight (3, 4) /\
  exists h u, mirror nowhere (double_of 2 0) [GLine (1, 4) (3, 4)] plain55 = Ok (h, u) /\ is_valid (vis2 h (2, 5)) = true /\ is_valid (vis2 h (0, 5)) = false.
Proof. exact mirror_adds. Qed.
(** At the left side other nodes are saved than are set: undoing leaves the new ones behind in the line that was added. *)
Theorem C98_left_refuted : exists junk factor l g h u u' k, gwf g /\ full g /\ no_hidden g /\ proper l /\ at_side g LineLeft (l_start l) /\ at_side g LineLeft (l_end l) /\
  mirror junk factor [l] g = Ok (h, u) /\ undo_grid u h = Ok (u', k) /\ ~ hidden_missing k.
Proof. exact mirror_left_refuted. Qed.
(** At the left side of a narrow grid it fails. *)
Theorem C98_narrow_refuted : exists junk factor l g, gwf g /\ full g /\ no_hidden g /\ proper l /\ shown2 g (l_start l) /\ shown2 g (l_end l) /\
  SFleb factor (frac 0 1) = false /\ at_side g LineLeft (l_start l) /\ at_side g LineLeft (l_end l) /\ throws (mirror junk factor [l] g) = true.
Proof. exact mirror_narrow_refuted. Qed.
(** At the border of a hole no line is added, and nodes at a side of the grid are moved. *)
Theorem C98_hole_refuted : exists junk factor l g h u, gwf g /\ clean g /\ no_hidden g /\ proper l /\ SFleb factor (frac 0 1) = false /\
  (forall c, covers l c -> shown2 g c /\ is_valid (vis2 g c) = true /\ forall t, ~ at_side g t c) /\
  mirror junk factor [l] g = Ok (h, u) /\ num_n h = num_n g /\ num_m h = num_m g /\ ~ same_view g h.
Proof. exact mirror_hole_refuted. Qed.

(** C99: snapping puts the valid nodes of the line on their nearest points, the nodes around follow as far as they are reached, and it can be undone. *)
Theorem C99_snapped : forall nearest expansion close points g, gwf g -> no_hidden g -> 2 <= length points <= 4 -> Forall (shown2 g) points ->
  exists h u, snap nearest expansion close points g = Ok (h, u) /\
    only_within (fun c => exists a, snap_line points a /\ snap_reach g points a c) g h /\
    (forall c, shown2 g c -> is_valid (vis2 g c) = false -> vis2 h c = vis2 g c) /\
    (let s := lowest (firstn 2 points) in let e := highest (firstn 2 points) in fst s = fst e \/ snd s = snd e ->
       forall a c, snap_line points a -> snap_reach g points a c -> snapped nearest expansion close g h a c) /\
    (clean g -> undone u g h) /\ (clean g -> clean h -> reversible u g h).
Proof. exact snap_ok. Qed.
Theorem C99_refused : forall nearest expansion close points g, length points < 2 \/ 4 < length points -> snap nearest expansion close points g = Throw ConstraintErr.
Proof. exact snap_refused. Qed.
Example C99_example : gwf open_grid /\ no_hidden open_grid /\ clean open_grid /\ Forall (shown2 open_grid) [(1, 0); (1, 4); (3, 2)] /\
  exists h u, snap a_bit half never [(1, 0); (1, 4); (3, 2)] open_grid = Ok (h, u) /\ moved_at open_grid h 3 1 = true /\ moved_at open_grid h 4 1 = false.
Proof. exact snap_moves. Qed.
(** Lines that were removed before change the result. *)
Theorem C99_hidden_refuted : exists nearest expansion close points g g' h h' u u', gwf g /\ gwf g' /\ clean g' /\ hidden_missing g' /\ same_view g g' /\
  length points = 2 /\ Forall (shown2 g) points /\
  snap nearest expansion close points g = Ok (h, u) /\ snap nearest expansion close points g' = Ok (h', u') /\ ~ same_view h h'.
Proof. exact snap_hidden_refuted. Qed.

Print Assumptions C93_accepted.
Print Assumptions C93_refused.
Print Assumptions C93_apart.
Print Assumptions C93_parallel_refuted.
Print Assumptions C93_overlap_refuted.
Print Assumptions C94_smoothed.
Print Assumptions C94_hidden_refuted.
Print Assumptions C95_slid.
Print Assumptions C95_refused.
Print Assumptions C95_undo_refuted.
Print Assumptions C95_projection_refuted.
Print Assumptions C95_hidden_refuted.
Print Assumptions C96_attracted.
Print Assumptions C96_refused.
Print Assumptions C96_hidden_refuted.
Print Assumptions C97_shifted.
Print Assumptions C97_refused.
Print Assumptions C97_undo_refuted.
Print Assumptions C97_missing_refuted.
Print Assumptions C98_mirrored.
Print Assumptions C98_refused.
Print Assumptions C98_left_refuted.
Print Assumptions C98_narrow_refuted.
Print Assumptions C98_hole_refuted.
Print Assumptions C99_snapped.
Print Assumptions C99_refused.
Print Assumptions C99_hidden_refuted.
