{
 "claims": [
  {
   "property": "C01",
   "status": "proved",
   "theorems": [
    "C01_undo_follows_snapshots",
    "C01_undo_touches_one_id",
    "C01_edits_then_undos"
   ],
   "note": "Refinement of the undo stack to a list of snapshots, generic in the undo actions; interface hypothesis discharged for concrete actions."
  },
  {
   "property": "C02",
   "status": "proved",
   "theorems": [
    "C02_redo_cancels_undo"
   ],
   "note": ""
  },
  {
   "property": "C03",
   "status": "proved",
   "theorems": [
    "C03_edit_discards_own_redo",
    "C01_undo_follows_snapshots"
   ],
   "note": ""
  },
  {
   "property": "C04",
   "status": "proved",
   "theorems": [
    "C04_committed_bounded",
    "C04_newest_kept"
   ],
   "note": "The comparison with an unlimited history assumes undo stays switched on and no undo call found nothing (otherwise the two histories are not comparable)."
  },
  {
   "property": "C05",
   "status": "proved",
   "theorems": [
    "C05_size_zero_disables"
   ],
   "note": ""
  },
  {
   "property": "C06",
   "status": "proved",
   "theorems": [
    "C06_counts",
    "C06_remove",
    "C06_reported_ids"
   ],
   "note": ""
  },
  {
   "property": "C07",
   "status": "proved",
   "theorems": [
    "C07_compound_reversible",
    "C07_compound_add",
    "C07_at_most_once"
   ],
   "note": ""
  },
  {
   "property": "C08",
   "status": "partial",
   "theorems": [
    "C08_total_size_refuted",
    "C08_total_size_partial"
   ],
   "note": "False in general (redo entries of other ids are never evicted); holds for one id with a fixed size."
  },
  {
   "property": "C09",
   "status": "proved",
   "theorems": [
    "C09_construct",
    "C09_well_formed",
    "C09_unchanged",
    "C09_out_of_range_undefined"
   ],
   "note": "Mesh::Mesh and DeleteInvalidNodesAndEdges."
  },
  {
   "property": "C10",
   "status": "proved",
   "theorems": [
    "C10_adjacency_exact",
    "C10_all_listed"
   ],
   "note": "For meshes with at least one node and one edge (otherwise the code leaves the tables untouched). The sort around a node is an arbitrary permutation."
  },
  {
   "property": "C11",
   "status": "proved",
   "theorems": [
    "C11_undo_redo_exact",
    "C11_mesh_interface",
    "C11_mesh_histories",
    "C11_built_consistent",
    "C11_edit_effects"
   ],
   "note": "Also covers merging, administrating, joining and converting; preconditions of each edit are in MeshSpec.medit_pre."
  },
  {
   "property": "C12",
   "status": "partial",
   "theorems": [
    "C12_delete_node_refuted",
    "C12_duplicate_edge_refuted",
    "C12_delete_node_partial"
   ],
   "note": "False after an edge was inserted without administration and for duplicate edges; holds when the adjacency lists all incident edges."
  },
  {
   "property": "C13",
   "status": "partial",
   "theorems": [
    "C13_merge_effect",
    "C13_merge_neighbours",
    "C13_merge_overflow_refuted",
    "C11_undo_redo_exact"
   ],
   "note": "Full effect and undo proved for nodes whose edges together fit the 16 slots; with more the code writes out of bounds."
  },
  {
   "property": "C14",
   "status": "partial",
   "theorems": [
    "C14_query_refuted",
    "C14_query_harmless_partial"
   ],
   "note": "False in general because dimensions administrate without undo; holds when the edit left nothing to remove."
  },
  {
   "property": "C15",
   "status": "proved",
   "theorems": [
    "C15_administration",
    "C11_undo_redo_exact"
   ],
   "note": "Undo of administration is the EAdministrate case of C11_undo_redo_exact."
  },
  {
   "property": "C16",
   "status": "proved",
   "theorems": [
    "C16_counts"
   ],
   "note": ""
  },
  {
   "property": "C17",
   "status": "proved",
   "theorems": [
    "C17_search_gives_usable_faces",
    "C17_export",
    "C17_stale_refuted"
   ],
   "note": "For the state after the face search done by get_dimensions; without it an edge inserted in between makes the export read out of bounds (refuted). Edge and face centres are not modelled."
  },
  {
   "property": "C18",
   "status": "partial",
   "theorems": [
    "C18_join_refuted",
    "C18_join_partial"
   ],
   "note": "False when the joined mesh has a deleted edge (index wrap-around); holds otherwise."
  },
  {
   "property": "C19",
   "status": "proved",
   "theorems": [
    "C19_faces_are_cycles"
   ],
   "note": "The orientation test and the order of edges around a node are arbitrary functions."
  },
  {
   "property": "C20",
   "status": "proved",
   "theorems": [
    "C20_tables_agree"
   ],
   "note": ""
  },
  {
   "property": "C21",
   "status": "proved",
   "theorems": [
    "C21_search_is_safe"
   ],
   "note": "Areas, centres and node types computed after the search are not modelled."
  },
  {
   "property": "C22",
   "status": "partial",
   "theorems": [
    "C22_triangulation",
    "C22_number_of_diagonals_partial",
    "C22_existing_diagonal_refuted"
   ],
   "note": "Exact effect and undo proved; the count n-3 holds only if no diagonal is an edge already, false otherwise."
  },
  {
   "property": "C23",
   "status": "proved",
   "theorems": [
    "C23_regions",
    "C23_removal"
   ],
   "note": ""
  },
  {
   "property": "C24",
   "status": "proved",
   "theorems": [
    "C24_round_trip",
    "C24_onto",
    "C24_outside"
   ],
   "note": ""
  },
  {
   "property": "C25",
   "status": "proved",
   "theorems": [
    "C25_nodes_edges",
    "C25_edge_indices"
   ],
   "note": ""
  },
  {
   "property": "C26",
   "status": "proved",
   "theorems": [
    "C26_stray_nodes",
    "C26_node_types"
   ],
   "note": "Two rounds of removal are enough, so the recursion of the code is bounded."
  },
  {
   "property": "C27",
   "status": "proved",
   "theorems": [
    "C27_boundary"
   ],
   "note": ""
  },
  {
   "property": "C28",
   "status": "partial",
   "theorems": [
    "C28_interior",
    "C28_node_partial",
    "C28_exterior_partial",
    "C28_node_refuted",
    "C28_exterior_refuted",
    "C28_redo_refuted"
   ],
   "note": "Interior of a block: proved. A node: proved unless the deletion leaves stray nodes, which are lost (refuted). Exterior: proved for grids without missing nodes unless exactly one line lies above the block (refuted). Redo of an interior deletion differs from the deletion (refuted)."
  },
  {
   "property": "C29",
   "status": "partial",
   "theorems": [
    "C29_derefine",
    "C29_refine",
    "C29_full_refine",
    "C29_hidden_refuted",
    "C29_splines_refuted"
   ],
   "note": "Proved for grids without hidden lines and stray nodes; the positions of new nodes inside a cell are an oracle that keeps corners. With hidden lines (after undoing an added line) both fail (refuted)."
  },
  {
   "property": "C30",
   "status": "proved",
   "theorems": [
    "C30_add_line",
    "C30_sequences"
   ],
   "note": ""
  },
  {
   "property": "C31",
   "status": "proved",
   "theorems": [
    "C31_symmetric",
    "C31_inside",
    "C31_outside"
   ],
   "note": ""
  },
  {
   "property": "C32",
   "status": "partial",
   "theorems": [
    "C32_assign",
    "C32_copy_partial",
    "C32_projection_refuted",
    "C32_hidden_refuted",
    "C32_empty_refuted"
   ],
   "note": "Assignment: proved for non-empty grids. The copy constructor: only for Cartesian grids without hidden lines, otherwise refuted."
  },
  {
   "property": "C33",
   "status": "partial",
   "theorems": [
    "C33_ids_fresh",
    "C33_allocate_partial",
    "C33_unknown_id",
    "C33_clear_state_refuted",
    "C33_get_projection_refuted"
   ],
   "note": "Proved without mkernel_clear_state (which resets the counter: refuted) and without mkernel_get_projection of an unknown id (which creates it: refuted)."
  },
  {
   "property": "C34",
   "status": "proved",
   "theorems": [
    "C34_isolated",
    "C34_undo_isolated",
    "C34_noninterference"
   ],
   "note": "Exceptions thrown inside undo/redo end the model; heaps of different ids are disjoint by construction of the model."
  },
  {
   "property": "C35",
   "status": "partial",
   "theorems": [
    "C35_undo_follows_snapshots_partial",
    "C35_mesh_library_partial",
    "C35_overwrite_refuted",
    "C35_projection_refuted",
    "C35_silent_refuted"
   ],
   "note": "Proved for histories of mesh2d/mesh1d/curvilinear set and generation, conversions between mesh and grid, deallocate and library edits; false (refuted) for network1d_set, circular grid, projection conversion, contacts_set and chainages."
  },
  {
   "property": "C36",
   "status": "partial",
   "theorems": [
    "C36_accounting_partial",
    "C36_registered",
    "C36_snap_refuted",
    "C36_snap_redo_refuted"
   ],
   "note": "Proved for calls that register under their id; false for mkernel_mesh2d_snap_to_landboundary."
  },
  {
   "property": "C37",
   "status": "proved",
   "theorems": [
    "C37_write",
    "C37_write_short",
    "C37_read",
    "C37_round_trip",
    "C37_polylines",
    "C37_polylines_all"
   ],
   "note": "Reading drops points equal to their predecessor; the round trip is exact for lists without such repeats."
  },
  {
   "property": "C38",
   "status": "partial",
   "theorems": [
    "C38_runs",
    "C38_runs_unique",
    "C38_outside",
    "C38_window_refuted",
    "C38_window_partial"
   ],
   "note": "Proved for scans to the end of the sequence (start arbitrary). For a window ending earlier the statement is false (refuted): the last range is extended to the end of the sequence."
  },
  {
   "property": "C39",
   "status": "proved",
   "theorems": [
    "C39_round_trip",
    "C39_number_of_nodes",
    "C39_polygon_index"
   ],
   "note": "For rings that are closed, have at least four points, all valid and different from the inner separator."
  },
  {
   "property": "C40",
   "status": "partial",
   "theorems": [
    "C40_any_start",
    "C40_rotate",
    "C40_reverse",
    "C40_translate",
    "C40_boundary",
    "C40_hull",
    "C40_convex",
    "C40_nodes_agree",
    "C40_few_nodes",
    "C40_open_list",
    "C40_nodes_agree_refuted",
    "C40_repeated_vertex_refuted"
   ],
   "note": "Exact arithmetic (start vertex: any arithmetic). Proved for Polygon::Contains; for IsPointInPolygonNodes only when the point is not on the line of a side outside that side (otherwise refuted). Convex means every side has a vertex strictly to its left; with a repeated vertex the answer is wrong (refuted)."
  },
  {
   "property": "C41",
   "status": "partial",
   "theorems": [
    "C41_island_refuted",
    "C41_regions_partial",
    "C41_which",
    "C41_region",
    "C41_same_answer",
    "C41_invalid_point"
   ],
   "note": "The full statement is false (refuted: island in a hole of an earlier polygon); proved when no hole hides another polygon."
  },
  {
   "property": "C42",
   "status": "proved",
   "theorems": [
    "C42_circular",
    "C42_steps",
    "C42_round_trip",
    "C42_rotate"
   ],
   "note": ""
  },
  {
   "property": "C43",
   "status": "proved",
   "theorems": [
    "C43_box",
    "C43_smallest",
    "C43_no_valid",
    "C43_non_overlapping",
    "C43_everything",
    "C43_contains",
    "C43_overlaps",
    "C43_overlaps_refuted",
    "C43_merge",
    "C43_two_points"
   ],
   "note": "For finite coordinates; overlap for boxes with corners the right way round, refuted for the inverted box."
  },
  {
   "property": "C44",
   "status": "proved",
   "theorems": [
    "C44_range_checks_int",
    "C44_range_checks_double",
    "C44_nan"
   ],
   "note": "Integers unbounded; doubles by the IEEE order of their exact values, NaN included. Message text not modelled."
  },
  {
   "property": "C45",
   "status": "proved",
   "theorems": [
    "C45_erase_rows",
    "C45_erase_cols",
    "C45_insert_row",
    "C45_insert_col",
    "C45_erase_undoes_insert",
    "C45_swap_rows",
    "C45_swap_cols",
    "C45_swap_twice",
    "C45_resize",
    "C45_resize_refuted"
   ],
   "note": "All row and column edits proved; ResizeAndFillMatrix with fewer rows and more columns writes out of bounds (refuted), proved otherwise."
  },
  {
   "property": "C46",
   "status": "proved",
   "theorems": [
    "C46_sorted_indices",
    "C46_doubles",
    "C46_reorder",
    "C46_in_place"
   ],
   "note": "std::stable_sort is modelled by insertion; the result is proved to be the only stable sorted order."
  },
  {
   "property": "C47",
   "status": "partial",
   "theorems": [
    "C47_range_partial",
    "C47_largest",
    "C47_smallest",
    "C47_smallest_absolute",
    "C47_closest",
    "C47_not_enough",
    "C47_far_samples_refuted",
    "C47_single_sample_refuted",
    "C47_no_samples_partial",
    "C47_no_samples_refuted"
   ],
   "note": "Holds with enough samples. The inverse-distance method compares the sum of the weights with the required number of samples, so samples far away give the missing value; with a required number of zero and no samples the result is not a number."
  },
  {
   "property": "C48",
   "status": "partial",
   "theorems": [
    "C48_edges_are_consecutive",
    "C48_two_polylines_partial",
    "C48_mesh_partial",
    "C48_later_polylines_refuted",
    "C48_third_polyline_refuted"
   ],
   "note": "False from the third non-empty polyline on, which loses edges and then nodes; holds for at most two."
  },
  {
   "property": "C49",
   "status": "partial",
   "theorems": [
    "C49_administration_makes_ready",
    "C49_single_partial",
    "C49_multiple_partial",
    "C49_boundary_partial",
    "C49_polygons_partial",
    "C49_points_partial",
    "C49_recomputation_partial",
    "C49_multiple_recomputation_partial",
    "C49_given_contacts",
    "C49_inserted_edge_refuted",
    "C49_deleted_edge_refuted",
    "C49_empty_polygon_refuted",
    "C49_masked_node_refuted",
    "C49_ignored_mask_refuted",
    "C49_same_object_refuted"
   ],
   "note": "False in general: out-of-range reads when the faces are not up to date or a 1D edge was deleted (multiple), missing contacts for polygons without faces, exception when the nearest node is masked, contacts with points ignore the mask, recomputing on the same object appends. Proved on an administrated 2D mesh, for all five computations: no out-of-range read, exceptions only for named reasons, contacts pair existing nodes and faces, exactly which pairs are connected, and recomputing from no contacts gives the same. Geometry and search trees are arguments of the model."
  },
  {
   "property": "C50",
   "status": "proved",
   "theorems": [
    "C50_is_equal_symmetric",
    "C50_is_equal_reflexive_iff",
    "C50_is_equal_nan",
    "C50_is_equal_zero",
    "C50_is_equal_infinity",
    "C50_default_point_invalid",
    "C50_is_valid_iff"
   ],
   "note": "Bit-exact binary64 arithmetic (Coq's SpecFloat)."
  },
  {
   "property": "C51",
   "status": "partial",
   "theorems": [
    "C51_terminates",
    "C51_row_partial",
    "C51_complete_refuted",
    "C51_once_refuted"
   ],
   "note": "Collecting stops for every edge of every mesh with faces in order. Exactly the edges of the row are collected, each once, if the row meets the first face at the start only once and the second face is a quadrilateral; without these conditions it is false: a row crossing itself in the first face is not collected completely, and beside a face with five edges the starting edge is collected twice and splitting reads out of range."
  },
  {
   "property": "C52",
   "status": "partial",
   "theorems": [
    "C52_search_ready",
    "C52_laid_out_partial",
    "C52_errors",
    "C52_distinct_refuted",
    "C52_bare_edge_refuted",
    "C52_far_refuted"
   ],
   "note": "Proved for meshes in which every edge has a face and which have fewer than 999 faces: one position per node, neighbours in a collected cell joined, no out-of-range read; distinct positions if no two nodes have three common neighbours. False otherwise: overlapping sheets put two nodes at one place, an edge without face is read out of range, and column -999 stands for no position."
  },
  {
   "property": "C53",
   "status": "proved",
   "theorems": [
    "C53_area",
    "C53_signed_area",
    "C53_rotate",
    "C53_reverse",
    "C53_translate",
    "C53_signs",
    "C53_convex",
    "C53_short",
    "C53_small_clockwise_refuted"
   ],
   "note": "Exact arithmetic, cartesian. The centre of mass is also covered when the area is above the minimum area 1e-8; below it is wrong for clockwise polygons (refuted)."
  },
  {
   "property": "C54",
   "status": "partial",
   "theorems": [
    "C54_face_polygons_partial",
    "C54_filtered_polygons",
    "C54_no_match_refuted"
   ],
   "note": "False if no face has the requested number of edges (the output is left unset); holds otherwise, and for every mask in the filtered version."
  },
  {
   "property": "C55",
   "status": "partial",
   "theorems": [
    "C55_report_partial",
    "C55_deletion_partial",
    "C55_stale_refuted"
   ],
   "note": "False before administration, because delete reads stale counts; holds when the adjacency lists all incident edges."
  },
  {
   "property": "C56",
   "status": "partial",
   "theorems": [
    "C56_no_dangling_partial",
    "C56_snap_refuted"
   ],
   "note": "Proved for calls that register under their id; false after mkernel_mesh2d_snap_to_landboundary followed by expunge."
  },
  {
   "property": "C57",
   "status": "partial",
   "theorems": [
    "C57_error_changes_nothing_partial",
    "C57_contacts_refuted"
   ],
   "note": "Proved except for failing contact computations, which replace the contacts; library calls are modelled as leaving the object unchanged when they throw."
  },
  {
   "property": "C58",
   "status": "partial",
   "theorems": [
    "C58_insert_face",
    "C58_every_border_edge",
    "C58_moves_node_refuted",
    "C58_out_of_bounds_refuted"
   ],
   "note": "C58_insert_face has the hypotheses under which it holds; in a bend of the border an existing node is moved, and after undo on one side an insertion on another reads out of bounds (refuted)."
  },
  {
   "property": "C60",
   "status": "proved",
   "theorems": [
    "C60_keep_inside"
   ],
   "note": "The point-in-polygon test is an arbitrary function."
  },
  {
   "property": "C61",
   "status": "partial",
   "theorems": [
    "C61_types_partial",
    "C61_types_refuted"
   ],
   "note": "Proved except for corner nodes in the first row, where the code gives a wrong type (refuted)."
  },
  {
   "property": "C62",
   "status": "proved",
   "theorems": [
    "C62_found_once",
    "C62_none_missed"
   ],
   "note": ""
  },
  {
   "property": "C63",
   "status": "partial",
   "theorems": [
    "C63_ends_kept_partial",
    "C63_both_sides",
    "C63_start_refuted",
    "C63_beyond_end_refuted"
   ],
   "note": "False for a fixed chainage at the start (the end chainage is overwritten) and beyond the end (out of range later); ends are kept otherwise, and both sides served if well spaced."
  },
  {
   "property": "C64",
   "status": "partial",
   "theorems": [
    "C64_safe",
    "C64_on_polyline_partial",
    "C64_skipped_segment_refuted",
    "C64_repeated_point_refuted"
   ],
   "note": "False when a chainage skips a whole segment and for repeated points; holds otherwise. Never out of range if no chainage lies beyond the end."
  },
  {
   "property": "C65",
   "status": "proved",
   "theorems": [
    "C65_spacing",
    "C65_network"
   ],
   "note": ""
  },
  {
   "property": "C66",
   "status": "proved",
   "theorems": [
    "C66_nodes_in_range",
    "C66_edges",
    "C66_lowered_once"
   ],
   "note": "Nodes: for a required number of at least one and methods other than minimum-absolute."
  },
  {
   "property": "C67",
   "status": "partial",
   "theorems": [
    "C67_found_face_contains_point_partial",
    "C67_long_face_refuted"
   ],
   "note": "False in general: only the faces at the edge with the nearest centre are tried, so a point in a long face can be missed. Proved: a face that is found contains the point, and a face at that edge containing the point is found."
  },
  {
   "property": "C69",
   "status": "partial",
   "theorems": [
    "C69_search_splittable",
    "C69_split_partial",
    "C69_refused",
    "C69_nothing_to_split",
    "C69_undo_refuted"
   ],
   "note": "Proved for starts where the whole row is collected (C51); undo gives the mesh back if the administration had nothing to do before and the middles are valid points; otherwise a node without edges is lost."
  },
  {
   "property": "C70",
   "status": "partial",
   "theorems": [
    "C70_grid_recovered_partial",
    "C70_reuse_refuted"
   ],
   "note": "Proved for a new converter, on meshes in which every edge has a face and which have fewer than 999 faces. False for a converter used again: it still holds the old positions."
  },
  {
   "property": "C71",
   "status": "partial",
   "theorems": [
    "C71_one_edge",
    "C71_flip_edges",
    "C71_start",
    "C71_triangles",
    "C71_safe_refuted",
    "C71_finished_refuted",
    "C71_orientation_refuted"
   ],
   "note": "Proved in full for every consistent mesh up to the two exceptions stated: an out-of-range write at a node that already has sixteen edges (refutation), and the early return at a face that is no triangle, which leaves edges to be flipped and clockwise faces (refutations). The crossing test, the functional near land boundaries and the node types are arguments."
  },
  {
   "property": "C72",
   "status": "proved",
   "theorems": [
    "C72_quality",
    "C72_succeeds"
   ],
   "note": "Without land boundaries, for node types fixed at the start as in the code."
  },
  {
   "property": "C73",
   "status": "partial",
   "theorems": [
    "C73_types",
    "C73_boundary_edges",
    "C73_angle_unused",
    "C73_corner_refuted",
    "C73_order_refuted",
    "C73_internal_refuted"
   ],
   "note": "The angle is never used: the index of the first boundary neighbour is compared with 0 although it starts as missing. With edges that belong to no face the types depend on the numbering of edges, and a node of the boundary can count as internal."
  },
  {
   "property": "C74",
   "status": "partial",
   "theorems": [
    "C74_brothers",
    "C74_exact",
    "C74_mutual_refuted"
   ],
   "note": "Every pair found is a pair of halves and every half gets a brother; exact and mutual if no edge is a half with two others. Not mutual in general: three equal edges in a line."
  },
  {
   "property": "C75",
   "status": "proved",
   "theorems": [
    "C75_spread"
   ],
   "note": "The limit of a thousand passes is reached only with a thousand unmarked edges; the rest holds without limit."
  },
  {
   "property": "C76",
   "status": "partial",
   "theorems": [
    "C76_step",
    "C76_hexagon_refuted"
   ],
   "note": "Exact for all masks unless a marked face has six points on its sides: then the function returns early and no edge is split (refutation). Edges inside are left out where their ends are joined already. Positions of centres are an argument; spherical corrections are left out."
  },
  {
   "property": "C77",
   "status": "partial",
   "theorems": [
    "C77_hanging",
    "C77_refused",
    "C77_complete",
    "C77_three_refuted",
    "C77_five_refuted"
   ],
   "note": "Exact for all brother tables; every hanging node is connected for one or two hanging nodes and mutual brothers. False with three hanging nodes in a triangle (left as they are) and for five sides (exception)."
  },
  {
   "property": "C78",
   "status": "partial",
   "theorems": [
    "C78_refine",
    "C78_safe_refuted"
   ],
   "note": "Proved for any number of levels up to the access out of range that a stale count of hanging edges causes; it is excluded for at most one level by size, and reached with two levels (refutation)."
  },
  {
   "property": "C79",
   "status": "partial",
   "theorems": [
    "C79_from_size",
    "C79_perimeter",
    "C79_limit",
    "C79_settle",
    "C79_directional",
    "C79_numbering_refuted",
    "C79_triangle_refuted"
   ],
   "note": "False in part: index 0 doubles as no index, so two adjacent long sides of a quadrilateral refine all four or only two depending on the numbering; a triangle with a hanging node ends the refinement with an exception; refinement in one direction always does."
  },
  {
   "property": "C80",
   "status": "proved",
   "theorems": [
    "C80_everything",
    "C80_hexagon_refuted"
   ],
   "note": "For triangles and quadrilaterals without hanging nodes; hexagons are left as they are (refutation)."
  },
  {
   "property": "C81",
   "status": "partial",
   "theorems": [
    "C81_nearest",
    "C81_on_land_refuted"
   ],
   "note": "Exact for all segments at a positive distance; a segment the point lies on is ignored (refutation)."
  },
  {
   "property": "C82",
   "status": "proved",
   "theorems": [
    "C82_close_edge",
    "C82_no_edge"
   ],
   "note": ""
  },
  {
   "property": "C83",
   "status": "partial",
   "theorems": [
    "C83_faces",
    "C83_nodes",
    "C83_two_faces_refuted"
   ],
   "note": "Proved in full for three faces or more; with one or two only the first face is marked, by a comparison with 3 that should be one with the number of faces left (refutation)."
  },
  {
   "property": "C84",
   "status": "partial",
   "theorems": [
    "C84_shortest",
    "C84_real",
    "C84_node_zero_refuted",
    "C84_on_land_refuted"
   ],
   "note": "Holds over marked nodes if node 0 is marked, is the start, or is never picked; otherwise node 0 is used as if marked (refutation). Paths as long as the largest double are not compared. A node on the land boundary makes it throw or read out of range (refutation); otherwise it always succeeds."
  },
  {
   "property": "C85",
   "status": "proved",
   "theorems": [
    "C85_path"
   ],
   "note": "Up to an exception, or the read out of range that needs a node without a segment at a positive distance. Single nodes: as in the code, the rule for the last one differs."
  },
  {
   "property": "C86",
   "status": "partial",
   "theorems": [
    "C86_find_partial",
    "C86_nothing",
    "C86_far_refuted"
   ],
   "note": "The nodes that get a piece, the piece they get and the points of the pieces added behind are described; missing is that every boundary node between two assigned ones is reached. There is no limit on the distance: boundary nodes on the far side are assigned as well (refutation)."
  },
  {
   "property": "C87",
   "status": "partial",
   "theorems": [
    "C87_snap",
    "C87_collapse_refuted",
    "C87_twice_refuted"
   ],
   "note": "Exact and undoable; not idempotent for nodes that land on the boundary, and opposite sides can fall together (refutations)."
  },
  {
   "property": "C88",
   "status": "partial",
   "theorems": [
    "C88_pieces",
    "C88_first_refuted"
   ],
   "note": "Exact; a run is kept only if its first segment touches the polygon (refutation)."
  },
  {
   "property": "C89",
   "status": "proved",
   "theorems": [
    "C89_mask",
    "C89_one_mask",
    "C89_two_edges"
   ],
   "note": "For consistent meshes with their faces; that boundary nodes have two boundary edges needs every edge at a node to belong to a face and faces to share at most one edge."
  },
  {
   "property": "C90",
   "status": "partial",
   "theorems": [
    "C90_new_nodes",
    "C90_room",
    "C90_apart_refuted"
   ],
   "note": "For faces that go along an edge in different directions and share at most one edge; with two shared edges a new node stays unconnected (refutation). Centres of faces are arguments."
  },
  {
   "property": "C91",
   "status": "partial",
   "theorems": [
    "C91_new_edges",
    "C91_loose_refuted"
   ],
   "note": "Exact list of edges, with at most three edges for each node and every edge at a node in a face; a loose edge makes the refinement throw (refutation)."
  },
  {
   "property": "C92",
   "status": "partial",
   "theorems": [
    "C92_refined",
    "C92_twice_refuted"
   ],
   "note": "Success, exact nodes and edges, tables and undo under the same conditions; at a corner with more than four edges the same edge is made twice (refutation)."
  },
  {
   "property": "C93",
   "status": "partial",
   "theorems": [
    "C93_accepted",
    "C93_refused",
    "C93_apart",
    "C93_parallel_refuted",
    "C93_overlap_refuted"
   ],
   "note": "What is accepted and refused for lines in different directions, for every sequence of lines. Parallel lines: a line beside another is refused and a line over part of another accepted (refutations)."
  },
  {
   "property": "C94",
   "status": "partial",
   "theorems": [
    "C94_smoothed",
    "C94_hidden_refuted"
   ],
   "note": "Exact passes, frame and undo for grids whose first lines were not removed; with removed lines the result differs (refutation). The projection on the side is an argument."
  },
  {
   "property": "C95",
   "status": "partial",
   "theorems": [
    "C95_slid",
    "C95_refused",
    "C95_undo_refuted",
    "C95_projection_refuted",
    "C95_hidden_refuted"
   ],
   "note": "Exact passes and frame. The grid kept for undo is the smoothed one, the projection becomes Cartesian and removed lines come back (refutations)."
  },
  {
   "property": "C96",
   "status": "partial",
   "theorems": [
    "C96_attracted",
    "C96_refused",
    "C96_hidden_refuted"
   ],
   "note": "Exact positions, frame and undo for grids without hidden lines; with them the result differs (refutation). Lengths are Cartesian for every grid, as in the code; the fading factor is an argument."
  },
  {
   "property": "C97",
   "status": "partial",
   "theorems": [
    "C97_shifted",
    "C97_refused",
    "C97_undo_refuted",
    "C97_missing_refuted"
   ],
   "note": "Exact positions, frame and undo for grids without hidden lines, with finite nodes before the line; undo needs the line in the block and missing nodes of the line get positions (refutations)."
  },
  {
   "property": "C98",
   "status": "partial",
   "theorems": [
    "C98_mirrored",
    "C98_refused",
    "C98_left_refuted",
    "C98_narrow_refuted",
    "C98_hole_refuted"
   ],
   "note": "Exact result at all four sides of grids without holes, undo at three of them; at the left side other nodes are saved, a narrow grid makes it fail, and at the border of a hole other nodes are overwritten (refutations)."
  },
  {
   "property": "C99",
   "status": "partial",
   "theorems": [
    "C99_snapped",
    "C99_refused",
    "C99_hidden_refuted"
   ],
   "note": "Frame and undo for all blocks of control points, exact positions for lines, for grids without hidden lines; with them the result differs (refutation). Nearest points and expansion factors are arguments."
  },
  {
   "property": "C100",
   "status": "partial",
   "theorems": [
    "C100_curvature_everywhere",
    "C100_curvature_not_negative",
    "C100_straight_not_zero",
    "C100_same_both_ways_refuted",
    "C100_circle_refuted"
   ],
   "note": "Which nodes get a value, the formula and the sign are proved (or NaN). Refuted: independence of the reading order, zero for a straight line, and the curvature of the circle for nodes on a circle."
  },
  {
   "property": "C101",
   "status": "partial",
   "theorems": [
    "C101_smoothness_everywhere",
    "C101_not_below_one",
    "C101_equal_edges",
    "C101_number_refuted"
   ],
   "note": "Proved in binary64 for edges whose squared lengths do not overflow; with overflow the value can be NaN (refutation)."
  },
  {
   "property": "C102",
   "status": "proved",
   "theorems": [
    "C102_rectangular",
    "C102_accurate_refused",
    "C102_in_polygon"
   ],
   "note": "In binary64 for all cosine and sine functions. The bounding box and rotation of the polygon that give the origin and the counts are not modelled."
  },
  {
   "property": "C103",
   "status": "proved",
   "theorems": [
    "C103_rectangular",
    "C103_next_latitude"
   ],
   "note": "For all cosine, sine and absolute value functions (abs may be that of an int or of a double in the code)."
  },
  {
   "property": "C104",
   "status": "partial",
   "theorems": [
    "C104_refused",
    "C104_cartesian",
    "C104_number_of_rows",
    "C104_spherical",
    "C104_reached_refuted"
   ],
   "note": "The count is the first number of steps, and the grid has that many rows when abs is that of doubles and the first row has the start latitude; an unfinished count is UB (fuel). Refuted: from -89 degrees towards the north the only row goes to the south pole. The ceiling is an argument."
  },
  {
   "property": "C105",
   "status": "proved",
   "theorems": [
    "C105_refined",
    "C105_length",
    "C105_closed",
    "C105_refused",
    "C105_same"
   ],
   "note": "For all piece counts; std::lround of the length and the size estimate for reserve are not modelled. Equal indices are accepted even outside the polygon."
  },
  {
   "property": "C106",
   "status": "partial",
   "theorems": [
    "C106_linear",
    "C106_unchanged",
    "C106_refused",
    "C106_last_to_first",
    "C106_every_point_set_refuted",
    "C106_defined_refuted"
   ],
   "note": "Partial correctness for all distance functions. Refuted: when the rounds run out after an insertion a point never set is returned; coinciding nodes and the selection from the last to the first node read outside a vector. That the spacing follows the ends is not proved."
  },
  {
   "property": "C107",
   "status": "partial",
   "theorems": [
    "C107_snapped",
    "C107_closed",
    "C107_refused",
    "C107_always_closed_refuted"
   ],
   "note": "Closed when both or neither of the end nodes are chosen; refuted otherwise: snapping only one copy of the first node opens the polygon. The spherical translation is an argument applied at the end."
  },
  {
   "property": "C108",
   "status": "proved",
   "theorems": [
    "C108_offset",
    "C108_closed",
    "C108_short"
   ],
   "note": "For all normals and displacements, in binary64. Fewer than two nodes are read outside (UB); Polygon constructors refuse those unless empty."
  },
  {
   "property": "C109",
   "status": "partial",
   "theorems": [
    "C109_plain",
    "C109_one_both",
    "C109_holes",
    "C109_several_refuted"
   ],
   "note": "Proved for one polygon without holes. Refuted in general: rings of several polygons follow each other without a separator, and with any hole the writes leave the vector (UB)."
  },
  {
   "property": "C110",
   "status": "proved",
   "theorems": [
    "C110_enclosure"
   ],
   "note": "For all normals and displacements and rings of at least two nodes."
  },
  {
   "property": "C111",
   "status": "proved",
   "theorems": [
    "C111_graded",
    "C111_uniform",
    "C111_number",
    "C111_symmetric"
   ],
   "note": "For all power functions and truncations with a uniform count between zero and the number of node columns; zero at the start when the first product is finite."
  },
  {
   "property": "C112",
   "status": "partial",
   "theorems": [
    "C112_graded",
    "C112_uniform",
    "C112_number",
    "C112_origin_refuted"
   ],
   "note": "The increments are proved; the first row is on the origin when the corrected count is zero. Refuted otherwise: for three rows, a fraction of a half and size two the first row is three quarters of a block away."
  },
  {
   "property": "C113",
   "status": "partial",
   "theorems": [
    "C113_grid",
    "C113_refused",
    "C113_radii",
    "C113_graded_radii",
    "C113_number",
    "C113_radius_refuted"
   ],
   "note": "For all trigonometric functions. Refuted: with graded rows the first radius is the radius plus the first row size."
  },
  {
   "property": "C114",
   "status": "proved",
   "theorems": [
    "C114_face",
    "C114_sides"
   ],
   "note": "For all position comparisons."
  },
  {
   "property": "C115",
   "status": "proved",
   "theorems": [
    "C115_globe",
    "C115_refused"
   ],
   "note": "For all latitude steps and position comparisons; the merging of nodes afterwards is not modelled."
  },
  {
   "property": "C116",
   "status": "proved",
   "theorems": [
    "C116_newton"
   ],
   "note": "For all functions in place of the cosine and square root."
  },
  {
   "property": "C117",
   "status": "proved",
   "theorems": [
    "C117_thin"
   ],
   "note": "For meshes whose counts agree with the edges, as after MergeNodesInPolygon."
  }
 ]
}