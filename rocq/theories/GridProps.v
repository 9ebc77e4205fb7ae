(** Properties C24-C32, C58, C60 and C61: curvilinear grids. *)
From Coq Require Import Permutation.
From Verif Require Import Base FloatModel UtilModel UndoModel ActionModel GridModel GridSpec GridProofs GridClean GridTypes GridEdits GridPolygon GridLines
  GridFace GridRefine GridBorder GridHistory GridBoundary GridMain GridWitness.

(** *** C24 *)
Theorem C24_round_trip : forall g n m, shown g n m ->
  exists i, node_index g (Some (n, m)) = Ok i /\ i = number g (n, m) /\ i < num_n g * num_m g /\ node_indices g i = Ok (n, m).
Proof. exact index_round_trip. Qed.
Theorem C24_onto : forall g i, i < num_n g * num_m g ->
  exists n m, shown g n m /\ node_indices g i = Ok (n, m) /\ node_index g (Some (n, m)) = Ok i.
Proof. exact number_round_trip. Qed.
Theorem C24_outside : forall g i, num_n g * num_m g <= i -> node_indices g i = Throw AlgorithmErr.
Proof. exact number_outside. Qed.
Example C24_example : node_indices (plain 2 3) 5 = Ok (1, 2) /\ node_index hidden_rows (Some (2, 1)) = Ok 9.
Proof. split; reflexivity. Qed.

(** *** C25 *)
Theorem C25_nodes_edges : forall g, gwf g -> exists nodes edges,
  compute_nodes g = Ok nodes /\ compute_edges g = Ok edges /\
  length nodes = num_n g * num_m g /\ (forall n m, shown g n m -> nth_error nodes (number g (n, m)) = Some (vis g n m)) /\
  length edges = (num_n g - 1) * num_m g + num_n g * (num_m g - 1) /\
  (forall a b, In (a, b) edges \/ In (b, a) edges <->
     exists p q, shown2 g p /\ shown2 g q /\ neighbours p q /\ a = number g p /\ b = number g q) /\
  NoDup edges /\ (forall a b, In (a, b) edges -> ~ In (b, a) edges).
Proof. exact unstructured_view. Qed.
(** The edges as pairs of grid positions (ComputeEdgeIndices) are the same edges in the same order. *)
Theorem C25_edge_indices : forall g, gwf g -> exists l,
  compute_edge_indices g = Ok l /\ compute_edges g = Ok (map (fun e => (number g (fst e), number g (snd e))) l).
Proof. exact edge_indices_agree. Qed.
Example C25_example : compute_edges (plain 2 3) = Ok [(0, 3); (1, 4); (2, 5); (0, 1); (1, 2); (3, 4); (4, 5)].
Proof. reflexivity. Qed.

(** *** C26: two rounds are enough, whatever the pattern of missing nodes *)
Theorem C26_stray_nodes : forall g fuel, gwf g -> exists h,
  remove_invalid (S (S fuel)) true g = Ok h /\ num_n h = num_n g /\ num_m h = num_m g /\
  (forall i j, shown g i j -> (is_valid (vis h i j) = true <-> in_cell g i j) /\ (in_cell g i j -> vis h i j = vis g i j)) /\
  (forall n m, complete h n m <-> complete g n m) /\
  exists k, remove_invalid (S (S fuel)) true h = Ok k /\ same_view h k.
Proof. exact stray_nodes_gone. Qed.
Theorem C26_node_types : forall g, gwf g -> exists h, compute_node_types g = Ok h /\
  num_n h = num_n g /\ num_m h = num_m g /\
  (forall i j, shown g i j -> (is_valid (vis h i j) = true <-> in_cell g i j) /\ (in_cell g i j -> vis h i j = vis g i j)) /\
  (forall n m, complete h n m <-> complete g n m).
Proof. exact node_types_view. Qed.
Example C26_example : gwf stray /\ in_cell stray 1 1 /\ ~ in_cell stray 2 3 /\ is_valid (vis stray 2 3) = true.
Proof. exact stray_ok. Qed.

(** *** C27 *)
(** The boundary edges of a block are the sides of exactly one complete cell of the block; the polygons returned are closed walks that
    use each of them exactly once, and no point of a polygon is missing, so the separators are recognisable. *)
Theorem C27_boundary : forall g ll ur, gwf g -> fst ur < num_n g -> snd ur < num_m g ->
  exists s polys, boundary_edges g ll ur = Ok s /\ NoDup s /\
    (forall e, In e s <-> exists c : nat * nat,
       (cell_in_block ll ur (fst c) (snd c) /\ complete g (fst c) (snd c) /\ side (fst c) (snd c) e) /\
       forall d : nat * nat, cell_in_block ll ur (fst d) (snd d) /\ complete g (fst d) (snd d) /\ side (fst d) (snd d) e -> d = c) /\
    boundary_polygons g ll ur = Ok (with_separators (map (map (vis2 g)) polys)) /\
    Permutation s (flat_map walk_edges polys) /\ Forall closed_walk polys /\
    forall poly v, In poly polys -> In v poly -> is_valid (vis2 g v) = true.
Proof. exact boundary_view. Qed.
(** Two cells touching in a corner: one polygon each.  A ring of cells: two polygons. *)
Example C27_example :
  gwf (plain 3 3) /\
  trace_all 8 (match boundary_edges (put_node (put_node (plain 3 3) 0 2 missing_point) 2 0 missing_point) (0, 0) (2, 2) with Ok s => s | _ => [] end)
  = Ok [[(0, 0); (0, 1); (1, 1); (1, 0); (0, 0)]; [(1, 1); (1, 2); (2, 2); (2, 1); (1, 1)]] /\
  match boundary_polygons (put_node (plain 5 5) 2 2 missing_point) (0, 0) (4, 4) with Ok l => length l = 27 | _ => False end.
Proof. split; [split; vm_compute; lia|]. split; vm_compute; reflexivity. Qed.

(** *** C28 *)
(** Interior of a block: exactly the nodes strictly inside disappear; undo gives them back if there were no stray nodes, and undo and redo alternate if the
    deletion leaves none. *)
Theorem C28_interior : forall g ll ur, gwf g -> shown2 g ur -> exists h u,
  delete_interior g ll ur = Ok (h, u) /\ num_n h = num_n g /\ num_m h = num_m g /\
  (forall i j, shown g i j -> vis h i j = if (fst ll <? i) && (i <? fst ur) && (snd ll <? j) && (j <? snd ur) then missing_point else vis g i j) /\
  (clean g -> exists u' k, undo_grid u h = Ok (u', k) /\ same_view g k) /\ (clean g -> clean h -> reversible u g h).
Proof. exact interior_view. Qed.
(** A node: undo and redo alternate between the two grids if the deletion leaves no stray nodes. *)
Theorem C28_node_partial : forall g n m, gwf g -> clean g -> gindices g = pairs 0 (num_n g) 0 (num_m g) -> shown g n m ->
  clean (put_node g n m missing_point) ->
  exists h u, delete_node g (number g (n, m)) = Ok (h, u) /\ num_n h = num_n g /\ num_m h = num_m g /\
    (forall i j, shown g i j -> vis h i j = if (i =? n) && (j =? m) then missing_point else vis g i j) /\
    reversible u g h.
Proof. exact node_view. Qed.
(** Exterior of a block: undo gives the grid back unless exactly one line lies above the block. *)
Theorem C28_exterior_partial : forall g ll ur, gwf g -> full g -> shown2 g ur -> fst ll < fst ur -> snd ll < snd ur ->
  (num_m g <= snd ur + 1 \/ snd ur + 3 <= num_m g \/ (fst ll = 0 /\ fst ur + 1 = num_n g)) ->
  exists h u, delete_exterior g ll ur = Ok (h, u) /\ num_n h = num_n g /\ num_m h = num_m g /\
    (forall i j, shown g i j -> vis h i j =
       if (fst ll <=? i) && (i <=? fst ur) && (snd ll <=? j) && (j <=? snd ur) then vis g i j else missing_point) /\
    exists u' k, undo_grid u h = Ok (u', k) /\ same_view g k.
Proof. exact exterior_view. Qed.
Example C28_example : gwf (plain 4 4) /\ full (plain 4 4) /\ clean (put_node (plain 4 4) 0 0 missing_point) /\
  gindices (plain 4 4) = pairs 0 (num_n (plain 4 4)) 0 (num_m (plain 4 4)).
Proof. split; [apply plain44|]. split; [apply plain44|]. split; [apply cleanb_ok; vm_compute; reflexivity|reflexivity]. Qed.

(** Deleting a node of a 2 x 2 grid and undoing it leaves one node; the exterior of the middle cell of a 4 x 4 grid comes back without
    two corners; redoing the deletion of an interior deletes more than the deletion. *)
Theorem C28_node_refuted : exists g i h u u' k, gwf g /\ full g /\ delete_node g i = Ok (h, u) /\ undo_grid u h = Ok (u', k) /\ ~ same_view g k.
Proof. exact node_undo_lost. Qed.
Theorem C28_exterior_refuted : exists g ll ur h u u' k, gwf g /\ full g /\ fst ll < fst ur /\ snd ll < snd ur /\ shown2 g ur /\
  delete_exterior g ll ur = Ok (h, u) /\ undo_grid u h = Ok (u', k) /\ ~ same_view g k.
Proof. exact exterior_undo_lost. Qed.
Theorem C28_redo_refuted : exists g ll ur h u u' k u'' h', gwf g /\ full g /\ shown2 g ur /\
  delete_interior g ll ur = Ok (h, u) /\ undo_grid u h = Ok (u', k) /\ redo_grid u' k = Ok (u'', h') /\ ~ same_view h h'.
Proof. exact interior_redo_differs. Qed.

(** *** C29 *)
Theorem C29_derefine : forall g ll ur, gwf g -> clean g -> no_hidden g -> shown2 g ur -> fst ll <= fst ur -> snd ll <= snd ur ->
  exists h u, derefine g ll ur = Ok (h, u) /\
    num_n h = num_n g - (fst ur - fst ll - 1) /\ num_m h = num_m g - (snd ur - snd ll - 1) /\
    (forall i j, shown h i j -> vis h i j = vis g (kept (fst ll) (fst ur) i) (kept (snd ll) (snd ur) j)) /\
    exists u' k, undo_grid u h = Ok (u', k) /\ same_view g k.
Proof. exact derefine_all. Qed.
(** [cell] gives the nodes of the refined cells; all that is assumed of it is that it keeps the corners of each cell. *)
Theorem C29_refine : forall cell g ll ur r, gwf g -> clean g -> no_hidden g -> shown2 g ur -> fst ll <= fst ur -> snd ll <= snd ur ->
  (snd ll = snd ur \/ fst ll = fst ur) -> 1 <= r ->
  let rn c := if (fst ll <=? c) && (c <? fst ur) then r else 1 in
  let rm c := if (snd ll <=? c) && (c <? snd ur) then r else 1 in
  (forall n m, complete g n m -> corners_kept g n m (rn n) (rm m) (cell n m)) ->
  exists h u, refine cell g ll ur r = Ok (h, u) /\
    num_n h = num_n g + (fst ur - fst ll) * (r - 1) /\ num_m h = num_m g + (snd ur - snd ll) * (r - 1) /\
    (forall n m, in_cell g n m -> vis h (moved (fst ll) (fst ur) r n) (moved (snd ll) (snd ur) r m) = vis g n m) /\
    (forall a b, shown h a b ->
       let pn := moved (fst ll) (fst ur) r in let pm := moved (snd ll) (snd ur) r in
       (exists c d, complete g c d /\ pn c <= a <= pn (c + 1) /\ pm d <= b <= pm (d + 1) /\ vis h a b = cell c d (a - pn c) (b - pm d)) \/
       ((forall c d, complete g c d -> ~ (pn c <= a <= pn (c + 1) /\ pm d <= b <= pm (d + 1))) /\ vis h a b = missing_point)) /\
    exists u' k, undo_grid u h = Ok (u', k) /\ same_view g k.
Proof. exact refine_all. Qed.
Theorem C29_full_refine : forall cell g rm rn, gwf g -> clean g -> no_hidden g -> 1 <= rm -> 1 <= rn -> (rm <> 1 \/ rn <> 1) ->
  (forall n m, complete g n m -> corners_kept g n m rn rm (cell n m)) ->
  exists h u, full_refine cell g rm rn = Ok (h, Some u) /\
    num_n h = (num_n g - 1) * rn + 1 /\ num_m h = (num_m g - 1) * rm + 1 /\
    (forall n m, in_cell g n m -> vis h (n * rn) (m * rm) = vis g n m) /\
    (forall a b, shown h a b ->
       (exists c d, complete g c d /\ c * rn <= a <= (c + 1) * rn /\ d * rm <= b <= (d + 1) * rm /\ vis h a b = cell c d (a - c * rn) (b - d * rm)) \/
       ((forall c d, complete g c d -> ~ (c * rn <= a <= (c + 1) * rn /\ d * rm <= b <= (d + 1) * rm)) /\ vis h a b = missing_point)) /\
    exists u' k, undo_grid u h = Ok (u', k) /\ same_view g k.
Proof. exact full_refine_all. Qed.
Example C29_example : exists cell, gwf (plain 4 4) /\ clean (plain 4 4) /\ no_hidden (plain 4 4) /\
  forall n m, complete (plain 4 4) n m -> corners_kept (plain 4 4) n m 2 1 (cell n m).
Proof.
  exists (fun n m i j => if i =? 0 then vis (plain 4 4) n (m + j) else if i =? 2 then vis (plain 4 4) (n + 1) (m + j) else missing_point).
  split; [apply plain44|]. split; [apply plain44|]. split; [apply plain44|]. intros n m _. unfold corners_kept. rewrite Nat.add_0_r. cbn. auto.
Qed.
(** With hidden lines the offsets stay although the matrix is replaced; and the splines that refinement interpolates cannot be made. *)
Theorem C29_hidden_refuted : exists g ll ur h u, gwf g /\ full g /\ hidden_missing g /\ shown2 g ur /\ derefine g ll ur = Ok (h, u) /\
  num_n h <> num_n g - (fst ur - fst ll - 1).
Proof. exact derefine_hidden. Qed.
Theorem C29_splines_refuted : exists g, gwf g /\ full g /\ hidden_missing g /\ exists e, grid_splines g = Throw e.
Proof. exact splines_hidden. Qed.

(** *** C30 *)
Theorem C30_add_line : forall junk g a b h u, gwf g -> clean g -> hidden_missing g -> add_grid_line junk g a b = Ok (h, Some u) ->
  exists t, num_n h = num_n g + lines_n t 1 /\ num_m h = num_m g + lines_m t 1 /\
    (forall c, shown2 g c -> vis2 h (shift t 1 c) = vis2 g c) /\
    (forall c, shown2 h c -> (forall d, shown2 g d -> c <> shift t 1 d) -> is_valid (vis2 h c) = false) /\
    reversible u g h.
Proof. exact add_line_view. Qed.
(** Every sequence of adding lines, recomputing types, undo and redo shows what is expected, and can go on. *)
Theorem C30_sequences : forall junk ops g h past now future, gwf g -> clean g -> hidden_missing g ->
  run_history junk ops (History g [] []) ([], g, []) = Ok (h, (past, now, future)) ->
  same_view now (h_grid h) /\ (exists h', history_step junk OpUndo h = Ok h') /\ (exists h', history_step junk OpRedo h = Ok h') /\
  length past = length (h_undo h) /\ length future = length (h_redo h).
Proof. exact history_ok. Qed.
Example C30_example : gwf typed /\ clean typed /\ hidden_missing typed /\
  exists h u, add_grid_line no_junk typed (0, 0) (0, 1) = Ok (h, Some u) /\ num_n h = num_n typed + 1.
Proof. exact typed_ok. Qed.
Example C30_sequences_example : exists h e,
  run_history no_junk some_history (History hidden_rows [] []) ([], hidden_rows, []) = Ok (h, e) /\ length (h_undo h) = 1.
Proof. exact history_example. Qed.

(** *** C31 *)
Theorem C31_symmetric : forall g a b, block_from_corners g a b = block_from_corners g b a.
Proof. exact block_symmetric. Qed.
Theorem C31_inside : forall g an am bn bm, shown g an am -> shown g bn bm ->
  block_from_corners g (Some an, Some am) (Some bn, Some bm) = Ok ((min an bn, min am bm), (max an bn, max am bm)).
Proof. exact block_inside. Qed.
Theorem C31_outside : forall g a b, (forall n m, a = (Some n, Some m) -> ~ shown g n m) -> block_from_corners g a b = Throw ConstraintErr.
Proof. exact block_outside. Qed.
Example C31_example : block_from_corners (plain 4 4) (Some 3, Some 1) (Some 0, Some 2) = Ok ((0, 1), (3, 2)).
Proof. reflexivity. Qed.

(** *** C32 *)
Theorem C32_assign : forall t g, gwf g ->
  exists h, copy_assign t g = Ok h /\ proj h = proj g /\ gnodes h = gnodes g /\ same_view g h /\ gindices h = pairs 0 (num_n g) 0 (num_m g).
Proof. exact copy_assign_ok. Qed.
Theorem C32_copy_partial : forall g, proj g = Cartesian -> start_n g = 0 -> start_m g = 0 -> end_n g = 0 -> end_m g = 0 -> copy_ctor g = g.
Proof. exact copy_ctor_plain. Qed.
Example C32_example : gwf hidden_rows.
Proof. apply hidden_rows_ok. Qed.
(** The copy constructor loses the projection and shows hidden lines; assigning an empty grid is an error. *)
Theorem C32_projection_refuted : exists g, gwf g /\ proj (copy_ctor g) <> proj g.
Proof. exact copy_loses_projection. Qed.
Theorem C32_hidden_refuted : exists g, gwf g /\ num_n (copy_ctor g) <> num_n g.
Proof. exact copy_shows_hidden. Qed.
Theorem C32_empty_refuted : forall t p, copy_assign t (empty_grid p) = Throw StdErr.
Proof. exact assign_empty. Qed.

(** *** C58 *)
Theorem C58_insert_face : forall junk g a b h u, gwf g -> clean g -> hidden_missing g -> shown2 g a -> shown2 g b -> neighbours a b ->
  insert_face junk g (Some (a, b)) = Ok (h, u) ->
  exists t s pa pb, (s = 0 \/ s = 1) /\ (s = 1 -> at_side g t a /\ at_side g t b) /\
    num_n h = num_n g + lines_n t s /\ num_m h = num_m g + lines_m t s /\
    pa = mirrored (vis2 g a) (vis2 g (inward t a)) /\ pb = mirrored (vis2 g b) (vis2 g (inward t b)) /\
    (is_valid pa = true -> is_valid pb = true ->
       vis2 h (outward t s a) = pa /\ vis2 h (outward t s b) = pb /\
       (forall c, shown2 g c -> shift t s c <> outward t s a -> shift t s c <> outward t s b -> vis2 h (shift t s c) = vis2 g c) /\
       (forall c, shown2 h c -> (forall d, shown2 g d -> c <> shift t s d) -> c <> outward t s a -> c <> outward t s b ->
          is_valid (vis2 h c) = false) /\
       reversible u g h).
Proof. exact insert_face_ok. Qed.
Theorem C58_every_border_edge : forall junk g a b t, gwf g -> full g -> hidden_missing g ->
  (start_n g = 0 \/ 0 < end_n g) /\ (start_m g = 0 \/ 0 < end_m g) ->
  shown2 g a -> shown2 g b -> neighbours a b -> at_side g t a -> at_side g t b ->
  exists h u, insert_face junk g (Some (a, b)) = Ok (h, u) /\ num_n h = num_n g + lines_n t 1 /\ num_m h = num_m g + lines_m t 1.
Proof. exact insert_face_border. Qed.
Example C58_example : gwf (plain 4 4) /\ full (plain 4 4) /\ hidden_missing (plain 4 4) /\ at_side (plain 4 4) LineTop (3, 1).
Proof. split; [apply plain44|]. split; [apply plain44|]. split; [apply plain44|reflexivity]. Qed.
(** In a bend an existing node is moved; with hidden lines on one side only, inserting a face on the other side reads out of bounds. *)
Theorem C58_moves_node_refuted : exists g a b h u c, gwf g /\ clean g /\ hidden_missing g /\ shown2 g a /\ shown2 g b /\ neighbours a b /\
  insert_face no_junk g (Some (a, b)) = Ok (h, u) /\ num_n h = num_n g /\ num_m h = num_m g /\
  is_valid (vis2 g c) = true /\ vis2 h c <> vis2 g c.
Proof. exact face_moves_node. Qed.
Theorem C58_out_of_bounds_refuted : exists g a b a' b', gwf g /\ full g /\ no_hidden g /\ shown2 g a /\ shown2 g b /\ neighbours a b /\
  shown2 g a' /\ shown2 g b' /\ neighbours a' b' /\ undone_then_top g a b a' b' = UB.
Proof. exact face_out_of_bounds. Qed.

(** *** C60 *)
Theorem C60_keep_inside : forall g, gwf g -> forall inside ins,
  (forall i j, shown g i j -> inside (vis g i j) = Ok (ins (vis g i j))) ->
  exists h, delete_outside inside g = Ok h /\ num_n h = num_n g /\ num_m h = num_m g /\
    forall i j, shown g i j ->
      (in_inside_cell g ins i j -> vis h i j = vis g i j) /\ (~ in_inside_cell g ins i j -> vis h i j = missing_point).
Proof. exact delete_outside_ok. Qed.
Example C60_example : gwf (plain 4 4) /\ in_inside_cell (plain 4 4) (fun _ => true) 1 1.
Proof. split; [apply plain44|]. exists 1, 1. vm_compute. repeat split; auto; lia. Qed.

(** *** C61 *)
Theorem C61_types_partial : forall g, gwf g ->
  exists h, compute_node_types g = Ok h /\ gwf h /\ num_n h = num_n g /\ num_m h = num_m g /\
    forall n m tr tl bl br, shown g n m ->
      cell_at g n m 0 0 tr -> cell_at g n m 1 0 tl -> cell_at g n m 1 1 bl -> cell_at g n m 0 1 br ->
      ~ (n = 0 /\ 0 < m < num_m g - 1 /\ br = true /\ tr = false) ->
      exists t, get_type h n m = Ok t /\ type_of tr tl bl br t.
Proof. exact types_of_cells. Qed.
Example C61_example : gwf stray.
Proof. apply stray_ok. Qed.
(** On the first row a corner under a missing cell gets the type of the opposite side. *)
Theorem C61_types_refuted : exists g h n m, gwf g /\ clean g /\ shown g n m /\ compute_node_types g = Ok h /\ get_type h n m = Ok UpperRight /\
  cell_at g n m 0 0 false /\ cell_at g n m 1 0 false /\ cell_at g n m 1 1 false /\ cell_at g n m 0 1 true.
Proof. exact wrong_type. Qed.

Print Assumptions C24_round_trip.
Print Assumptions C24_onto.
Print Assumptions C24_outside.
Print Assumptions C25_nodes_edges.
Print Assumptions C25_edge_indices.
Print Assumptions C26_stray_nodes.
Print Assumptions C26_node_types.
Print Assumptions C27_boundary.
Print Assumptions C28_interior.
Print Assumptions C28_node_partial.
Print Assumptions C28_exterior_partial.
Print Assumptions C28_node_refuted.
Print Assumptions C28_exterior_refuted.
Print Assumptions C28_redo_refuted.
Print Assumptions C29_derefine.
Print Assumptions C29_refine.
Print Assumptions C29_full_refine.
Print Assumptions C29_hidden_refuted.
Print Assumptions C29_splines_refuted.
Print Assumptions C30_add_line.
Print Assumptions C30_sequences.
Print Assumptions C31_symmetric.
Print Assumptions C31_inside.
Print Assumptions C31_outside.
Print Assumptions C32_assign.
Print Assumptions C32_copy_partial.
Print Assumptions C32_projection_refuted.
Print Assumptions C32_hidden_refuted.
Print Assumptions C32_empty_refuted.
Print Assumptions C58_insert_face.
Print Assumptions C58_every_border_edge.
Print Assumptions C58_moves_node_refuted.
Print Assumptions C58_out_of_bounds_refuted.
Print Assumptions C60_keep_inside.
Print Assumptions C61_types_partial.
Print Assumptions C61_types_refuted.
