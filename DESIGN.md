# Formal model of MeshKernel in Rocq (Coq 8.16.1)

Source: `/repo` (Deltares/MeshKernel, C++), read as text only. Everything below lives in `rocq/theories`.

## How the development is organised

For each area `X` there are these kinds of files:

* `XModel.v`   – executable Gallina functions modelling the C++ functions. Every definition cites file and lines in `/repo`
  and says where it simplifies. No proofs.
* `XSpec.v`    – small, independent specifications used by the statements (what a user would write down).
* `XProofs.v`, `XMain.v`, … – lemmas and proofs.
* `XWitness.v` – concrete meshes, grids, histories: instances of the hypotheses and counterexamples.
* `XProps.v`   – property theorems only: statement, `exact lemma`, `Print Assumptions`; plus an `Example` for each theorem
  showing that a concrete non-trivial case meets its hypotheses.

Where the faithful model violates a property, a theorem `…_refuted` gives a concrete witness (checked by computation) and the
provable part is named `…_partial`. A property whose English statement is false in general is `partial` in the manifest.

## Modelling conventions

* `std::vector<T>` is `list T`. Out-of-range `operator[]` is undefined behaviour in C++; the model makes it a distinct
  outcome (`UB`), and exceptions a distinct outcome (`Throw`), see `Base.v`.
* `UInt` (uint32) indices are `nat`, and the missing index `uintValue = 2^32-1` is `None` (so an edge is a pair of
  `option nat`). This is faithful as long as every array has fewer than 2^32-1 entries; wrap-around arithmetic on the
  missing value (`Mesh::operator+=`) is written out explicitly.
* Coordinates are IEEE binary64 values represented by the standard library's `spec_float` with the standard `SpecFloat`
  operations (no axioms). Validity of a point uses the code's own approximate comparison `IsEqual`.
* Plane geometry (`Geom*`) is written over an arbitrary arithmetic; the theorems are about the instance with the real numbers,
  a few about every arithmetic, refutations about doubles or reals. Networks and averages use exact rational numbers.
* Geometric decisions that topology theorems must not depend on (sorting edges around a node by angle, sign of an area, what a
  search tree finds, point-in-polygon tests) are functions passed as arguments, and the theorems quantify over all of them.
* Loops without an evident bound get fuel; running out of it is a distinct result that the theorems exclude.

## What is modelled, and what is not

| area | source | modelled | left out or idealised |
|------|--------|----------|-----------------------|
| `Undo*`, `Action*` | `UndoActionStack.cpp`, `UndoAction.cpp`, `CompoundUndoAction.cpp`, `MeshKernel.cpp` undo calls | stack of committed and restored actions for all ids, sizes, switching off, compound trees with state | memory sizes; an exception inside an undo ends the run |
| `Mesh*` | `Mesh.cpp`, the mesh undo actions | construction, administration, adjacency, insert/connect/delete/move/merge/join, valid counts and maps, undo of each | search trees and flags, edge lengths and centres; the sort around a node is an arbitrary permutation |
| `Face*`, `FaceUse*` | `Mesh2D.cpp`, `RemoveDisconnectedRegions.cpp`, API `Utils.hpp` | face search, edge-face tables, triangulation, hanging edges, regions, export, face polygons, deletion outside polygons | areas, centres; orientation test arbitrary; no integer overflow in sizes |
| `Split*` | `SplitRowColumnOfMesh.cpp` | collecting a row, splitting it, undo | face search of the final administration (see `Face*`); wrapping index arithmetic beyond all vectors is UB at once |
| `Convert*` | `Mesh2DToCurvilinear.cpp/.hpp` | the whole conversion, growing matrix with negative indices | nearest face and containment test as arguments; no integer overflow |
| `Flip*`, `NodeType*` | `FlipEdges.cpp`, `Mesh2D.cpp` ClassifyNodes | the whole algorithm with its table updates, node types | crossing test, angle test and the functional near land boundaries as arguments; sums of indices do not overflow |
| `Refine*` | `MeshRefinement.cpp` | brother edges, hanging nodes, all masks, spreading, splitting of edges and faces, connecting hanging nodes, all levels of Compute | selection by polygon, edge sizes, samples, the test for a middle and the centres of faces as arguments; spherical corrections left out |
| `Grid*` | `CurvilinearGrid.cpp/.hpp`, block, delete, refinement, undo actions | storage with hidden lines, node types, stray nodes, boundary polygons, add/delete/undo, (de)refinement, export | search trees, flags, `m_edges`; interpolated positions inside a cell are an oracle; UInt subtraction truncated (differs only for grids with fewer than two lines) |
| `Api*` | `MeshKernel.cpp`, `State.hpp`, `MKStateUndoAction.cpp` | ids, states as pointers to heap objects, kinds of editing calls, undo stack, expunge, error handling | interactive algorithm pointers, messages; each id has its own heap; library calls that throw leave their object unchanged |
| `Poly*` | `Operations.cpp`, `Polygon.cpp`, `Polygons.cpp`, `BoundingBox.hpp`, API `Utils.hpp` | geometry lists, splitting at separators, enclosures with holes, boxes | – |
| `Geom*` | `Polygon.cpp`, `Operations.cpp` | point in polygon, signed area and centre of mass in the plane | spherical coordinates |
| `Util*`, `Float*` | `Operations.*`, `RangeCheck.hpp`, `LinearAlgebra.hpp`, `NumericFunctions.hpp` | circular indices, range checks, matrix editing, sorting, `IsEqual` | message texts, NaN payloads |
| `Network*`, `Average*` | `Network1D.cpp`, `Mesh1D.cpp`, `AveragingInterpolation.cpp`, strategies | chainages, discretisation, conversion to a mesh, averaging strategies, use on a mesh | exact rational numbers, distances and searches as arguments, division by zero gives no number; merging of close nodes after the conversion |
| `Land*`, `FloatSum` | `LandBoundaries.cpp`, `LandBoundary.cpp` | pieces, nearest segment, close edges, masks of faces and nodes, shortest paths with rounded sums, assignment of pieces, added pieces, snapping | distances, point-in-polygon, face of a point and crossed boundary edge as arguments; a new object each time |
| `Casulli*` | `CasulliRefinement.cpp` | node mask, new nodes and their table, new edges, removal of replaced nodes, the whole refinement with undo | point-in-polygon, centres of faces and node types as arguments; the search for patches only as far as it is used |
| `GridMove*` | `CurvilinearGridAlgorithm.cpp`, `…Line.cpp`, `…Smoothing.cpp`, `…LineAttractionRepulsion.cpp`, `…LineShift.cpp`, `…LineMirror.cpp`, `…Snapping.cpp`, `CurvilinearGrid.cpp:938-1040` | selecting lines, smoothing, directional smoothing, attraction, shifting and mirroring a line, snapping, with undo | projection on a side, distances, the cosine of the fading factor, nearest points and expansion factors as arguments; nodes are given by index, not by coordinates |
| `GridMake*` | `CurvilinearGridCurvature.cpp`, `CurvilinearGridSmoothness.cpp`, `CurvilinearGridRectangular.cpp` | curvature and smoothness in binary64, rectangular grids from counts, on an extension and in a polygon, Cartesian and spherical | cosine, sine, the ceiling and the abs of the latitude loops as arguments; the bounding box and rotation of a polygon that give origin and counts; the latitude loop runs on fuel |
| `GridCircle*` | `CurvilinearGridGenerateCircularGrid.cpp`, `CheckMakeGridParameters` in `Parameters.hpp` | circular and graded rectangular grids in binary64, counts in int and UInt arithmetic | power, cosine, sine, conversion of a double to an integer, pi and degToRad as arguments; counts near the largest int |
| `Global*` | `Mesh2DGenerateGlobal.cpp` without the merging of nodes and removal of deleted edges (lines 182-187, 211-214) | mesh of nodes and edges; adding faces, the loops over latitudes and longitudes, `DeltaLatitude` in binary64, the deletion of edges | comparison of positions, the test for short faces, cosine, square root and degToRad as arguments; undo actions; node administration taken to be right |
| `PolyEdit*` | `Polygon.cpp` (`Refine`, `LinearRefine`, `SnapToLandBoundary`, `ComputeOffset`), `Polygons.cpp` and `PolygonalEnclosure.cpp` (`OffsetCopy`, `RefineFirstPolygon`) | refining, snapping and offsetting polygons, with the vectors the code writes into | distances, rounded piece counts, nearest points, normals and displacements as arguments; reserve and its size estimate; bounding boxes |
| `Contacts*` | `Contacts.cpp` | the five ways of computing contacts, point-face search | geometry and search trees as arguments |

Not modelled at all: numerical accuracy of trigonometric and spherical computations, R-tree nearest-neighbour search, the
external triangulation library, orthogonalisation and smoothing, memory allocation, concurrency.

## Trusted base

* Coq 8.16.1 kernel including `vm_compute`, and `coqchk`.
* The reading of the C++ source recorded in the comments of the model files, with the simplifications above.
* The axioms listed below, all from the standard library.

## Testing the theorems against wrong programs

`seeded/LOG.jsonl` records edits of the model, as a realistic bug would make them, each tried in a copy outside this tree: the
definition, the edit, the claim it breaks, the theorems that no longer prove, and those that were tightened because they still did.

## Axioms under each theorem

What `Print Assumptions` prints, for every theorem named in `MANIFEST.json` (each properties file ends with these commands).
All of them are axioms of the standard library. No other theorem of the development is claimed.

* **Closed under the global context** (380 theorems): `C01_edits_then_undos`, `C01_undo_follows_snapshots`, `C01_undo_touches_one_id`, `C02_redo_cancels_undo`, `C03_edit_discards_own_redo`, `C04_committed_bounded`, `C04_newest_kept`, `C05_size_zero_disables`, `C06_counts`, `C06_remove`, `C06_reported_ids`, `C07_at_most_once`, `C07_compound_add`, `C07_compound_reversible`, `C08_total_size_partial`, `C08_total_size_refuted`, `C09_construct`, `C09_out_of_range_undefined`, `C09_unchanged`, `C09_well_formed`, `C100_circle_refuted`, `C100_curvature_everywhere`, `C100_same_both_ways_refuted`, `C100_straight_not_zero`, `C101_number_refuted`, `C101_smoothness_everywhere`, `C102_accurate_refused`, `C102_in_polygon`, `C102_rectangular`, `C103_next_latitude`, `C103_rectangular`, `C104_cartesian`, `C104_number_of_rows`, `C104_reached_refuted`, `C104_refused`, `C104_spherical`, `C105_closed`, `C105_length`, `C105_refined`, `C105_refused`, `C105_same`, `C106_defined_refuted`, `C106_every_point_set_refuted`, `C106_last_to_first`, `C106_linear`, `C106_refused`, `C106_unchanged`, `C107_always_closed_refuted`, `C107_closed`, `C107_refused`, `C107_snapped`, `C108_closed`, `C108_offset`, `C108_short`, `C109_holes`, `C109_one_both`, `C109_plain`, `C109_several_refuted`, `C10_adjacency_exact`, `C10_all_listed`, `C110_enclosure`, `C111_graded`, `C111_number`, `C111_symmetric`, `C111_uniform`, `C112_graded`, `C112_number`, `C112_origin_refuted`, `C112_uniform`, `C113_graded_radii`, `C113_grid`, `C113_number`, `C113_radii`, `C113_radius_refuted`, `C113_refused`, `C114_face`, `C114_sides`, `C115_globe`, `C115_refused`, `C116_newton`, `C117_thin`, `C11_built_consistent`, `C11_edit_effects`, `C11_mesh_histories`, `C11_mesh_interface`, `C11_undo_redo_exact`, `C12_delete_node_partial`, `C12_delete_node_refuted`, `C12_duplicate_edge_refuted`, `C13_merge_effect`, `C13_merge_neighbours`, `C13_merge_overflow_refuted`, `C14_query_harmless_partial`, `C14_query_refuted`, `C15_administration`, `C16_counts`, `C17_export`, `C17_search_gives_usable_faces`, `C17_stale_refuted`, `C18_join_partial`, `C18_join_refuted`, `C19_faces_are_cycles`, `C20_tables_agree`, `C21_search_is_safe`, `C22_existing_diagonal_refuted`, `C22_number_of_diagonals_partial`, `C22_triangulation`, `C23_regions`, `C23_removal`, `C24_onto`, `C24_outside`, `C24_round_trip`, `C25_edge_indices`, `C25_nodes_edges`, `C26_node_types`, `C26_stray_nodes`, `C27_boundary`, `C28_exterior_partial`, `C28_exterior_refuted`, `C28_interior`, `C28_node_partial`, `C28_node_refuted`, `C28_redo_refuted`, `C29_derefine`, `C29_full_refine`, `C29_hidden_refuted`, `C29_refine`, `C29_splines_refuted`, `C30_add_line`, `C30_sequences`, `C31_inside`, `C31_outside`, `C31_symmetric`, `C32_assign`, `C32_copy_partial`, `C32_empty_refuted`, `C32_hidden_refuted`, `C32_projection_refuted`, `C33_allocate_partial`, `C33_clear_state_refuted`, `C33_get_projection_refuted`, `C33_ids_fresh`, `C33_unknown_id`, `C34_isolated`, `C34_noninterference`, `C34_undo_isolated`, `C35_mesh_library_partial`, `C35_overwrite_refuted`, `C35_projection_refuted`, `C35_silent_refuted`, `C35_undo_follows_snapshots_partial`, `C36_accounting_partial`, `C36_registered`, `C36_snap_redo_refuted`, `C36_snap_refuted`, `C37_polylines`, `C37_polylines_all`, `C37_read`, `C37_round_trip`, `C37_write`, `C37_write_short`, `C38_outside`, `C38_runs`, `C38_runs_unique`, `C38_window_partial`, `C38_window_refuted`, `C39_number_of_nodes`, `C39_polygon_index`, `C39_round_trip`, `C40_any_start`, `C40_few_nodes`, `C40_nodes_agree_refuted`, `C40_open_list`, `C40_repeated_vertex_refuted`, `C41_invalid_point`, `C41_island_refuted`, `C41_region`, `C41_regions_partial`, `C41_same_answer`, `C41_which`, `C42_circular`, `C42_rotate`, `C42_round_trip`, `C42_steps`, `C43_no_valid`, `C44_nan`, `C44_range_checks_int`, `C45_erase_cols`, `C45_erase_rows`, `C45_erase_undoes_insert`, `C45_insert_col`, `C45_insert_row`, `C45_resize`, `C45_resize_refuted`, `C45_swap_cols`, `C45_swap_rows`, `C45_swap_twice`, `C46_in_place`, `C46_reorder`, `C46_sorted_indices`, `C47_closest`, `C47_far_samples_refuted`, `C47_largest`, `C47_no_samples_partial`, `C47_no_samples_refuted`, `C47_not_enough`, `C47_range_partial`, `C47_single_sample_refuted`, `C47_smallest`, `C47_smallest_absolute`, `C48_edges_are_consecutive`, `C48_later_polylines_refuted`, `C48_mesh_partial`, `C48_third_polyline_refuted`, `C48_two_polylines_partial`, `C49_administration_makes_ready`, `C49_boundary_partial`, `C49_deleted_edge_refuted`, `C49_empty_polygon_refuted`, `C49_given_contacts`, `C49_ignored_mask_refuted`, `C49_inserted_edge_refuted`, `C49_masked_node_refuted`, `C49_multiple_partial`, `C49_multiple_recomputation_partial`, `C49_points_partial`, `C49_polygons_partial`, `C49_recomputation_partial`, `C49_same_object_refuted`, `C49_single_partial`, `C50_default_point_invalid`, `C50_is_equal_infinity`, `C50_is_equal_nan`, `C50_is_equal_reflexive_iff`, `C50_is_equal_symmetric`, `C50_is_equal_zero`, `C50_is_valid_iff`, `C51_complete_refuted`, `C51_once_refuted`, `C51_row_partial`, `C51_terminates`, `C52_bare_edge_refuted`, `C52_distinct_refuted`, `C52_errors`, `C52_far_refuted`, `C52_laid_out_partial`, `C52_search_ready`, `C53_small_clockwise_refuted`, `C54_face_polygons_partial`, `C54_filtered_polygons`, `C54_no_match_refuted`, `C55_deletion_partial`, `C55_report_partial`, `C55_stale_refuted`, `C56_no_dangling_partial`, `C56_snap_refuted`, `C57_contacts_refuted`, `C57_error_changes_nothing_partial`, `C58_every_border_edge`, `C58_insert_face`, `C58_moves_node_refuted`, `C58_out_of_bounds_refuted`, `C60_keep_inside`, `C61_types_partial`, `C61_types_refuted`, `C62_found_once`, `C62_none_missed`, `C63_beyond_end_refuted`, `C63_both_sides`, `C63_ends_kept_partial`, `C63_start_refuted`, `C64_on_polyline_partial`, `C64_repeated_point_refuted`, `C64_safe`, `C64_skipped_segment_refuted`, `C65_network`, `C65_spacing`, `C66_edges`, `C66_lowered_once`, `C66_nodes_in_range`, `C67_found_face_contains_point_partial`, `C67_long_face_refuted`, `C69_nothing_to_split`, `C69_refused`, `C69_search_splittable`, `C69_split_partial`, `C69_undo_refuted`, `C70_grid_recovered_partial`, `C70_reuse_refuted`, `C71_finished_refuted`, `C71_flip_edges`, `C71_one_edge`, `C71_orientation_refuted`, `C71_safe_refuted`, `C71_start`, `C71_triangles`, `C72_quality`, `C72_succeeds`, `C73_angle_unused`, `C73_boundary_edges`, `C73_corner_refuted`, `C73_internal_refuted`, `C73_order_refuted`, `C73_types`, `C74_brothers`, `C74_exact`, `C74_mutual_refuted`, `C75_spread`, `C76_hexagon_refuted`, `C76_step`, `C77_complete`, `C77_five_refuted`, `C77_hanging`, `C77_refused`, `C77_three_refuted`, `C78_refine`, `C78_safe_refuted`, `C79_directional`, `C79_from_size`, `C79_limit`, `C79_numbering_refuted`, `C79_perimeter`, `C79_settle`, `C79_triangle_refuted`, `C80_everything`, `C80_hexagon_refuted`, `C81_nearest`, `C81_on_land_refuted`, `C82_close_edge`, `C82_no_edge`, `C83_faces`, `C83_nodes`, `C83_two_faces_refuted`, `C84_node_zero_refuted`, `C84_on_land_refuted`, `C84_real`, `C86_far_refuted`, `C86_nothing`, `C87_collapse_refuted`, `C87_snap`, `C87_twice_refuted`, `C88_first_refuted`, `C88_pieces`, `C89_mask`, `C89_one_mask`, `C89_two_edges`, `C90_apart_refuted`, `C90_new_nodes`, `C90_room`, `C91_loose_refuted`, `C91_new_edges`, `C92_refined`, `C92_twice_refuted`, `C93_accepted`, `C93_apart`, `C93_overlap_refuted`, `C93_parallel_refuted`, `C93_refused`, `C94_hidden_refuted`, `C94_smoothed`, `C95_hidden_refuted`, `C95_projection_refuted`, `C95_refused`, `C95_slid`, `C95_undo_refuted`, `C96_attracted`, `C96_hidden_refuted`, `C96_refused`, `C97_missing_refuted`, `C97_refused`, `C97_shifted`, `C97_undo_refuted`, `C98_hole_refuted`, `C98_left_refuted`, `C98_mirrored`, `C98_narrow_refuted`, `C98_refused`, `C99_hidden_refuted`, `C99_refused`, `C99_snapped`.
* `ClassicalDedekindReals.sig_forall_dec`, `FunctionalExtensionality.functional_extensionality_dep` (14 theorems): `C40_hull`, `C40_nodes_agree`, `C40_reverse`, `C40_rotate`, `C40_translate`, `C43_everything`, `C53_area`, `C53_convex`, `C53_reverse`, `C53_rotate`, `C53_short`, `C53_signed_area`, `C53_signs`, `C53_translate`.
* `ClassicalDedekindReals.sig_forall_dec`, `Classical_Prop.classic`, `FunctionalExtensionality.functional_extensionality_dep` (2 theorems): `C40_boundary`, `C40_convex`.
* `ClassicalDedekindReals.sig_forall_dec`, `ClassicalDedekindReals.sig_not_dec`, `Classical_Prop.classic`, `FunctionalExtensionality.functional_extensionality_dep` (16 theorems): `C100_curvature_not_negative`, `C101_equal_edges`, `C101_not_below_one`, `C43_box`, `C43_contains`, `C43_merge`, `C43_non_overlapping`, `C43_overlaps`, `C43_overlaps_refuted`, `C43_smallest`, `C43_two_points`, `C44_range_checks_double`, `C46_doubles`, `C84_shortest`, `C85_path`, `C86_find_partial`.

## Status of the properties

| id | status | note |
|----|--------|------|
| C01 | proved | Refinement of the undo stack to a list of snapshots, generic in the undo actions; interface hypothesis discharged for concrete actions. |
| C02 | proved |  |
| C03 | proved |  |
| C04 | proved | The comparison with an unlimited history assumes undo stays switched on and no undo call found nothing (otherwise the two histories are not comparable). |
| C05 | proved |  |
| C06 | proved |  |
| C07 | proved |  |
| C08 | partial | False in general (redo entries of other ids are never evicted); holds for one id with a fixed size. |
| C09 | proved | Mesh::Mesh and DeleteInvalidNodesAndEdges. |
| C10 | proved | For meshes with at least one node and one edge (otherwise the code leaves the tables untouched). The sort around a node is an arbitrary permutation. |
| C11 | proved | Also covers merging, administrating, joining and converting; preconditions of each edit are in MeshSpec.medit_pre. |
| C12 | partial | False after an edge was inserted without administration and for duplicate edges; holds when the adjacency lists all incident edges. |
| C13 | partial | Full effect and undo proved for nodes whose edges together fit the 16 slots; with more the code writes out of bounds. |
| C14 | partial | False in general because dimensions administrate without undo; holds when the edit left nothing to remove. |
| C15 | proved | Undo of administration is the EAdministrate case of C11_undo_redo_exact. |
| C16 | proved |  |
| C17 | proved | For the state after the face search done by get_dimensions; without it an edge inserted in between makes the export read out of bounds (refuted). Edge and face centres are not modelled. |
| C18 | partial | False when the joined mesh has a deleted edge (index wrap-around); holds otherwise. |
| C19 | proved | The orientation test and the order of edges around a node are arbitrary functions. |
| C20 | proved |  |
| C21 | proved | Areas, centres and node types computed after the search are not modelled. |
| C22 | partial | Exact effect and undo proved; the count n-3 holds only if no diagonal is an edge already, false otherwise. |
| C23 | proved |  |
| C24 | proved |  |
| C25 | proved |  |
| C26 | proved | Two rounds of removal are enough, so the recursion of the code is bounded. |
| C27 | proved |  |
| C28 | partial | Interior of a block: proved. A node: proved unless the deletion leaves stray nodes, which are lost (refuted). Exterior: proved for grids without missing nodes unless exactly one line lies above the block (refuted). Redo of an interior deletion differs from the deletion (refuted). |
| C29 | partial | Proved for grids without hidden lines and stray nodes; the positions of new nodes inside a cell are an oracle that keeps corners. With hidden lines (after undoing an added line) both fail (refuted). |
| C30 | proved |  |
| C31 | proved |  |
| C32 | partial | Assignment: proved for non-empty grids. The copy constructor: only for Cartesian grids without hidden lines, otherwise refuted. |
| C33 | partial | Proved without mkernel_clear_state (which resets the counter: refuted) and without mkernel_get_projection of an unknown id (which creates it: refuted). |
| C34 | proved | Exceptions thrown inside undo/redo end the model; heaps of different ids are disjoint by construction of the model. |
| C35 | partial | Proved for histories of mesh2d/mesh1d/curvilinear set and generation, conversions between mesh and grid, deallocate and library edits; false (refuted) for network1d_set, circular grid, projection conversion, contacts_set and chainages. |
| C36 | partial | Proved for calls that register under their id; false for mkernel_mesh2d_snap_to_landboundary. |
| C37 | proved | Reading drops points equal to their predecessor; the round trip is exact for lists without such repeats. |
| C38 | partial | Proved for scans to the end of the sequence (start arbitrary). For a window ending earlier the statement is false (refuted): the last range is extended to the end of the sequence. |
| C39 | proved | For rings that are closed, have at least four points, all valid and different from the inner separator. |
| C40 | partial | Exact arithmetic (start vertex: any arithmetic). Proved for Polygon::Contains; for IsPointInPolygonNodes only when the point is not on the line of a side outside that side (otherwise refuted). Convex means every side has a vertex strictly to its left; with a repeated vertex the answer is wrong (refuted). |
| C41 | partial | The full statement is false (refuted: island in a hole of an earlier polygon); proved when no hole hides another polygon. |
| C42 | proved |  |
| C43 | proved | For finite coordinates; overlap for boxes with corners the right way round, refuted for the inverted box. |
| C44 | proved | Integers unbounded; doubles by the IEEE order of their exact values, NaN included. Message text not modelled. |
| C45 | proved | All row and column edits proved; ResizeAndFillMatrix with fewer rows and more columns writes out of bounds (refuted), proved otherwise. |
| C46 | proved | std::stable_sort is modelled by insertion; the result is proved to be the only stable sorted order. |
| C47 | partial | Holds with enough samples. The inverse-distance method compares the sum of the weights with the required number of samples, so samples far away give the missing value; with a required number of zero and no samples the result is not a number. |
| C48 | partial | False from the third non-empty polyline on, which loses edges and then nodes; holds for at most two. |
| C49 | partial | False in general: out-of-range reads when the faces are not up to date or a 1D edge was deleted (multiple), missing contacts for polygons without faces, exception when the nearest node is masked, contacts with points ignore the mask, recomputing on the same object appends. Proved on an administrated 2D mesh, for all five computations: no out-of-range read, exceptions only for named reasons, contacts pair existing nodes and faces, exactly which pairs are connected, and recomputing from no contacts gives the same. Geometry and search trees are arguments of the model. |
| C50 | proved | Bit-exact binary64 arithmetic (Coq's SpecFloat). |
| C51 | partial | Collecting stops for every edge of every mesh with faces in order. Exactly the edges of the row are collected, each once, if the row meets the first face at the start only once and the second face is a quadrilateral; without these conditions it is false: a row crossing itself in the first face is not collected completely, and beside a face with five edges the starting edge is collected twice and splitting reads out of range. |
| C52 | partial | Proved for meshes in which every edge has a face and which have fewer than 999 faces: one position per node, neighbours in a collected cell joined, no out-of-range read; distinct positions if no two nodes have three common neighbours. False otherwise: overlapping sheets put two nodes at one place, an edge without face is read out of range, and column -999 stands for no position. |
| C53 | proved | Exact arithmetic, cartesian. The centre of mass is also covered when the area is above the minimum area 1e-8; below it is wrong for clockwise polygons (refuted). |
| C54 | partial | False if no face has the requested number of edges (the output is left unset); holds otherwise, and for every mask in the filtered version. |
| C55 | partial | False before administration, because delete reads stale counts; holds when the adjacency lists all incident edges. |
| C56 | partial | Proved for calls that register under their id; false after mkernel_mesh2d_snap_to_landboundary followed by expunge. |
| C57 | partial | Proved except for failing contact computations, which replace the contacts; library calls are modelled as leaving the object unchanged when they throw. |
| C58 | partial | C58_insert_face has the hypotheses under which it holds; in a bend of the border an existing node is moved, and after undo on one side an insertion on another reads out of bounds (refuted). |
| C60 | proved | The point-in-polygon test is an arbitrary function. |
| C61 | partial | Proved except for corner nodes in the first row, where the code gives a wrong type (refuted). |
| C62 | proved |  |
| C63 | partial | False for a fixed chainage at the start (the end chainage is overwritten) and beyond the end (out of range later); ends are kept otherwise, and both sides served if well spaced. |
| C64 | partial | False when a chainage skips a whole segment and for repeated points; holds otherwise. Never out of range if no chainage lies beyond the end. |
| C65 | proved |  |
| C66 | proved | Nodes: for a required number of at least one and methods other than minimum-absolute. |
| C67 | partial | False in general: only the faces at the edge with the nearest centre are tried, so a point in a long face can be missed. Proved: a face that is found contains the point, and a face at that edge containing the point is found. |
| C69 | partial | Proved for starts where the whole row is collected (C51); undo gives the mesh back if the administration had nothing to do before and the middles are valid points; otherwise a node without edges is lost. |
| C70 | partial | Proved for a new converter, on meshes in which every edge has a face and which have fewer than 999 faces. False for a converter used again: it still holds the old positions. |
| C71 | partial | Proved in full for every consistent mesh up to the two exceptions stated: an out-of-range write at a node that already has sixteen edges (refutation), and the early return at a face that is no triangle, which leaves edges to be flipped and clockwise faces (refutations). The crossing test, the functional near land boundaries and the node types are arguments. |
| C72 | proved | Without land boundaries, for node types fixed at the start as in the code. |
| C73 | partial | The angle is never used: the index of the first boundary neighbour is compared with 0 although it starts as missing. With edges that belong to no face the types depend on the numbering of edges, and a node of the boundary can count as internal. |
| C74 | partial | Every pair found is a pair of halves and every half gets a brother; exact and mutual if no edge is a half with two others. Not mutual in general: three equal edges in a line. |
| C75 | proved | The limit of a thousand passes is reached only with a thousand unmarked edges; the rest holds without limit. |
| C76 | partial | Exact for all masks unless a marked face has six points on its sides: then the function returns early and no edge is split (refutation). Edges inside are left out where their ends are joined already. Positions of centres are an argument; spherical corrections are left out. |
| C77 | partial | Exact for all brother tables; every hanging node is connected for one or two hanging nodes and mutual brothers. False with three hanging nodes in a triangle (left as they are) and for five sides (exception). |
| C78 | partial | Proved for any number of levels up to the access out of range that a stale count of hanging edges causes; it is excluded for at most one level by size, and reached with two levels (refutation). |
| C79 | partial | False in part: index 0 doubles as no index, so two adjacent long sides of a quadrilateral refine all four or only two depending on the numbering; a triangle with a hanging node ends the refinement with an exception; refinement in one direction always does. |
| C80 | proved | For triangles and quadrilaterals without hanging nodes; hexagons are left as they are (refutation). |
| C81 | partial | Exact for all segments at a positive distance; a segment the point lies on is ignored (refutation). |
| C82 | proved |  |
| C83 | partial | Proved in full for three faces or more; with one or two only the first face is marked, by a comparison with 3 that should be one with the number of faces left (refutation). |
| C84 | partial | Holds over marked nodes if node 0 is marked, is the start, or is never picked; otherwise node 0 is used as if marked (refutation). Paths as long as the largest double are not compared. A node on the land boundary makes it throw or read out of range (refutation); otherwise it always succeeds. |
| C85 | proved | Up to an exception, or the read out of range that needs a node without a segment at a positive distance. Single nodes: as in the code, the rule for the last one differs. |
| C86 | partial | The nodes that get a piece, the piece they get and the points of the pieces added behind are described; missing is that every boundary node between two assigned ones is reached. There is no limit on the distance: boundary nodes on the far side are assigned as well (refutation). |
| C87 | partial | Exact and undoable; not idempotent for nodes that land on the boundary, and opposite sides can fall together (refutations). |
| C88 | partial | Exact; a run is kept only if its first segment touches the polygon (refutation). |
| C89 | proved | For consistent meshes with their faces; that boundary nodes have two boundary edges needs every edge at a node to belong to a face and faces to share at most one edge. |
| C90 | partial | For faces that go along an edge in different directions and share at most one edge; with two shared edges a new node stays unconnected (refutation). Centres of faces are arguments. |
| C91 | partial | Exact list of edges, with at most three edges for each node and every edge at a node in a face; a loose edge makes the refinement throw (refutation). |
| C92 | partial | Success, exact nodes and edges, tables and undo under the same conditions; at a corner with more than four edges the same edge is made twice (refutation). |
| C93 | partial | What is accepted and refused for lines in different directions, for every sequence of lines. Parallel lines: a line beside another is refused and a line over part of another accepted (refutations). |
| C94 | partial | Exact passes, frame and undo for grids whose first lines were not removed; with removed lines the result differs (refutation). The projection on the side is an argument. |
| C95 | partial | Exact passes and frame. The grid kept for undo is the smoothed one, the projection becomes Cartesian and removed lines come back (refutations). |
| C96 | partial | Exact positions, frame and undo for grids without hidden lines; with them the result differs (refutation). Lengths are Cartesian for every grid, as in the code; the fading factor is an argument. |
| C97 | partial | Exact positions, frame and undo for grids without hidden lines, with finite nodes before the line; undo needs the line in the block and missing nodes of the line get positions (refutations). |
| C98 | partial | Exact result at all four sides of grids without holes, undo at three of them; at the left side other nodes are saved, a narrow grid makes it fail, and at the border of a hole other nodes are overwritten (refutations). |
| C99 | partial | Frame and undo for all blocks of control points, exact positions for lines, for grids without hidden lines; with them the result differs (refutation). Nearest points and expansion factors are arguments. |
| C100 | partial | Which nodes get a value, the formula and the sign are proved (or NaN). Refuted: independence of the reading order, zero for a straight line, and the curvature of the circle for nodes on a circle. |
| C101 | partial | Proved in binary64 for edges whose squared lengths do not overflow; with overflow the value can be NaN (refutation). |
| C102 | proved | In binary64 for all cosine and sine functions. The bounding box and rotation of the polygon that give the origin and the counts are not modelled. |
| C103 | proved | For all cosine, sine and absolute value functions (abs may be that of an int or of a double in the code). |
| C104 | partial | The count is the first number of steps, and the grid has that many rows when abs is that of doubles and the first row has the start latitude; an unfinished count is UB (fuel). Refuted: from -89 degrees towards the north the only row goes to the south pole. The ceiling is an argument. |
| C105 | proved | For all piece counts; std::lround of the length and the size estimate for reserve are not modelled. Equal indices are accepted even outside the polygon. |
| C106 | partial | Partial correctness for all distance functions. Refuted: when the rounds run out after an insertion a point never set is returned; coinciding nodes and the selection from the last to the first node read outside a vector. That the spacing follows the ends is not proved. |
| C107 | partial | Closed when both or neither of the end nodes are chosen; refuted otherwise: snapping only one copy of the first node opens the polygon. The spherical translation is an argument applied at the end. |
| C108 | proved | For all normals and displacements, in binary64. Fewer than two nodes are read outside (UB); Polygon constructors refuse those unless empty. |
| C109 | partial | Proved for one polygon without holes. Refuted in general: rings of several polygons follow each other without a separator, and with any hole the writes leave the vector (UB). |
| C110 | proved | For all normals and displacements and rings of at least two nodes. |
| C111 | proved | For all power functions and truncations with a uniform count between zero and the number of node columns; zero at the start when the first product is finite. |
| C112 | partial | The increments are proved; the first row is on the origin when the corrected count is zero. Refuted otherwise: for three rows, a fraction of a half and size two the first row is three quarters of a block away. |
| C113 | partial | For all trigonometric functions. Refuted: with graded rows the first radius is the radius plus the first row size. |
| C114 | proved | For all position comparisons. |
| C115 | proved | For all latitude steps and position comparisons; the merging of nodes afterwards is not modelled. |
| C116 | proved | For all functions in place of the cosine and square root. |
| C117 | proved | For meshes whose counts agree with the edges, as after MergeNodesInPolygon. |
