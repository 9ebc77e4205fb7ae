{"id": "C01", "title": "Undo returns to exactly the state before the undone edit", "statement": "Take any history of edits, undo calls and redo calls made through the kernel, on any number of kernel ids, where every edit registers an action that can revert it. Every successful mkernel_undo_state call changes the content of exactly one kernel id, the one it reports, and gives that id back exactly the content it had immediately before its most recent not-yet-undone edit; every other id keeps its content. An undo call with nothing to undo reports that and changes nothing.", "quantifier": "every maximum undo size, every number of kernel ids, every finite interleaving of edits, undos, redos, clears and size changes", "why_tests_cant": "the claim is about all interleavings of calls on all ids; tests run a handful of short scripts, mostly on one id", "anchors": ["libs/MeshKernel/src/UndoActions/UndoActionStack.cpp: UndoActionStack::Add, Undo, Commit, Clear, Remove, SetMaximumSize", "libs/MeshKernelApi/src/MeshKernel.cpp: mkernel_undo_state, mkernel_redo_state"]}
{"id": "C02", "title": "Redo exactly cancels undo", "statement": "After any history, k successful undo calls followed by k redo calls (with no edit in between) make every redo succeed, report the ids in the reverse order of the undos, and bring every kernel id, and the undo and redo lists themselves, back to exactly what they were before the k undos.", "quantifier": "every reachable history, every k up to the number of undoable actions", "why_tests_cant": "needs an inductive argument over k and over every reachable stack, tests use k of 1 or 2", "anchors": ["libs/MeshKernel/src/UndoActions/UndoActionStack.cpp: UndoActionStack::Undo, Commit"]}
{"id": "C03", "title": "A new edit discards the redo entries of its own id only", "statement": "After an edit on kernel id i is registered, nothing belonging to i can be redone any more, while the redoable actions of every other id are still there, in the same order, and still redo to the content they had; the new edit is the next one to be undone.", "quantifier": "every reachable stack, every id", "why_tests_cant": "depends on every mix of ids in the redo list", "anchors": ["libs/MeshKernel/src/UndoActions/UndoActionStack.cpp: UndoActionStack::Add"]}
{"id": "C04", "title": "The number of undoable actions never exceeds the configured maximum, and the newest are the ones kept", "statement": "At every moment the number of undoable actions reported by mkernel_undo_state_count is at most the configured undo size. When the limit is hit, precisely the oldest actions are forgotten: what can still be undone is always the most recent suffix of what an unlimited history would hold.", "quantifier": "every sequence of stack operations including changes of the maximum size at any time", "why_tests_cant": "invariant over unbounded histories; tests fill the stack once", "anchors": ["libs/MeshKernel/src/UndoActions/UndoActionStack.cpp: UndoActionStack::Add, Commit, SetMaximumSize", "libs/MeshKernelApi/src/MeshKernel.cpp: mkernel_set_undo_size, mkernel_undo_state_count"]}
{"id": "C05", "title": "Undo size zero switches undo off completely", "statement": "After mkernel_set_undo_size(0) both counts are zero, and whatever edits, undos and redos follow, both counts stay zero, undo and redo report that nothing was done and edits are still applied, until the size is set to a positive value again.", "quantifier": "every history before and after the call", "why_tests_cant": "a statement about all continuations", "anchors": ["libs/MeshKernel/src/UndoActions/UndoActionStack.cpp: UndoActionStack::SetMaximumSize, Add"]}
{"id": "C06", "title": "Per-id counts add up, and removing one id leaves all others alone", "statement": "For every stack the per-id undo and redo counts are the numbers of entries carrying that id and they sum to the total counts; removing an id (mkernel_expunge_state, mkernel_clear_undo_state_for_id) reports how many entries were removed, leaves no entry of that id, and keeps the entries of every other id in unchanged order.", "quantifier": "every stack, every id", "why_tests_cant": "ranges over all stacks", "anchors": ["libs/MeshKernel/src/UndoActions/UndoActionStack.cpp: UndoActionStack::Remove, CommittedSize, RestoredSize, Size"]}
{"id": "C07", "title": "Composite actions revert and re-apply exactly, in the right order, at most once", "statement": "A compound undo action built from any list of individually reversible steps (themselves possibly compound) restores exactly the state before the first step and, when committed again, gives exactly the state after the last step. Restoring an already restored action, or committing an already committed one, does nothing.", "quantifier": "every finite tree of actions, every starting state", "why_tests_cant": "nesting and length are unbounded", "anchors": ["libs/MeshKernel/src/UndoActions/UndoAction.cpp: UndoAction::Commit, Restore", "libs/MeshKernel/src/UndoActions/CompoundUndoAction.cpp: DoCommit, DoRestore, Add"]}
{"id": "C08", "title": "The total number of remembered actions is bounded by the undo size", "statement": "The number of undoable plus redoable actions never exceeds the configured undo size, so the memory the history holds is bounded.", "quantifier": "every history on any number of ids", "why_tests_cant": "only shows with several ids and long histories", "anchors": ["libs/MeshKernel/src/UndoActions/UndoActionStack.cpp: UndoActionStack::Add, Undo, Size"]}
{"id": "C09", "title": "Building a mesh from arbitrary nodes and edges yields a well-formed mesh isomorphic to the valid part of the input", "statement": "Constructing a mesh (mkernel_mesh2d_set, mkernel_mesh1d_set) from any node and edge arrays, possibly containing missing nodes, missing edge ends or edges to missing nodes, gives a mesh in which every node is valid and every edge joins two existing nodes; its nodes are exactly the valid input nodes that are an end of some input edge with two valid ends, in input order, and its edges are exactly the input edges with both ends valid, in order, each joining the same two points as before. If the input had nothing missing and no unconnected node it is taken over unchanged. An edge array that refers to a node index outside the node array is undefined behaviour.", "quantifier": "every node array and edge array of any length", "why_tests_cant": "quantifies over all inputs; index renumbering bugs show only for particular patterns of missing entries", "anchors": ["libs/MeshKernel/src/Mesh.cpp: Mesh::DeleteInvalidNodesAndEdges, Mesh::Mesh"]}
{"id": "C10", "title": "Node to edge adjacency is exact", "statement": "After administration, the edges listed at a node are edges incident to that node, listed without repetition of a neighbour; every incident edge is listed unless another edge to the same neighbour is listed or the node already carries the maximum number of edges, and the stored count equals the number of listed edges.", "quantifier": "every mesh, including duplicate edges, self-edges and missing entries", "why_tests_cant": "all incidence patterns", "anchors": ["libs/MeshKernel/src/Mesh.cpp: Mesh::NodeAdministration, SortEdges, AdministrateNodesEdges"]}
{"id": "C11", "title": "Undoing an elementary mesh edit restores nodes and edges exactly", "statement": "For insert node, insert edge, delete edge, delete node, move/reset node and reset edge on any mesh, undoing the edit gives back exactly the node array contents and edge array contents up to the appended trailing entries being marked missing, and redoing gives back exactly the edited mesh.", "quantifier": "every mesh, every node and edge index in range, every point", "why_tests_cant": "all meshes and arguments", "anchors": ["libs/MeshKernel/src/Mesh.cpp: InsertNode, ConnectNodes, DeleteEdge, DeleteNode, ResetNode, CommitAction, RestoreAction", "libs/MeshKernel/src/UndoActions/*.cpp"]}
{"id": "C12", "title": "Deleting a node deletes that node and all edges ending in it, and nothing else", "statement": "After mkernel_mesh2d_delete_node(n) node n is missing, every edge that ended in n is missing, and every other node and edge is unchanged.", "quantifier": "every mesh reachable through the API, every node index", "why_tests_cant": "depends on the adjacency being up to date for every prior edit", "anchors": ["libs/MeshKernel/src/Mesh.cpp: Mesh::DeleteNode, ConnectNodes", "libs/MeshKernelApi/src/MeshKernel.cpp: mkernel_mesh2d_delete_node, mkernel_mesh2d_insert_edge"]}
{"id": "C13", "title": "Merging two nodes is safe and reversible", "statement": "After mkernel_mesh2d_merge_two_nodes(a, b) no edge ends in a, every neighbour of a or b other than a and b themselves is joined to b, no edge that had neither end in {a,b} changed, no other node changed, and undo restores the mesh exactly.", "quantifier": "every administrated mesh, every pair of distinct nodes", "why_tests_cant": "all neighbourhood configurations, including shared neighbours and the maximum number of edges", "anchors": ["libs/MeshKernel/src/Mesh.cpp: Mesh::MergeTwoNodes"]}
{"id": "C14", "title": "Reading a mesh never changes what undo can restore", "statement": "Calling a query (dimensions, data, counts) between an edit and its undo makes no difference: after undo the mesh is what it was before the edit.", "quantifier": "every mesh, every edit, every query placement", "why_tests_cant": "needs all interleavings of queries and edits", "anchors": ["libs/MeshKernelApi/src/MeshKernel.cpp: mkernel_mesh2d_get_dimensions, mkernel_mesh2d_get_data", "libs/MeshKernel/src/Mesh.cpp: Administrate, SetUnConnectedNodesAndEdgesToInvalid"]}
{"id": "C15", "title": "Administration marks exactly the unconnected nodes and dangling edges as missing, is idempotent and reversible", "statement": "After administrating a non-empty mesh, an edge is missing if and only if it was missing or one of its end nodes was missing; a node is missing if and only if it was missing or no edge that remains ends in it; running it again changes nothing; with an undo action passed, undo restores the nodes and edges exactly.", "quantifier": "every mesh", "why_tests_cant": "all meshes", "anchors": ["libs/MeshKernel/src/Mesh.cpp: Mesh::SetUnConnectedNodesAndEdgesToInvalid, InvalidateUnConnectedNodes, AdministrateNodesEdges"]}
{"id": "C16", "title": "Counts and index maps of valid entities agree with the arrays", "statement": "The numbers of valid nodes and valid edges are the numbers of nodes and edges that are not missing; the valid-index map sends the valid entities, in order, one-to-one onto 0..count-1 positions.", "quantifier": "every mesh", "why_tests_cant": "all meshes", "anchors": ["libs/MeshKernel/src/Mesh.cpp: GetNumValidNodes, GetNumValidEdges, GetValidNodeMapping, GetValidEdgeMapping"]}
{"id": "C17", "title": "Exported arrays are consistent with the exported dimensions", "statement": "After mkernel_mesh2d_get_dimensions with buffers of the reported sizes, mkernel_mesh2d_get_data writes exactly those numbers of entries, never outside the buffers, and every exported edge and face refers to exported nodes and edges.", "quantifier": "every mesh", "why_tests_cant": "memory safety over all meshes", "anchors": ["libs/MeshKernelApi/include/MeshKernelApi/Utils.hpp: SetMesh2dApiDimensions, SetMesh2dApiData"]}
{"id": "C18", "title": "Joining two meshes keeps both", "statement": "Adding mesh B to mesh A gives the nodes of A followed by the nodes of B and the edges of A followed by the edges of B with every index shifted by the number of nodes of A; missing edge ends stay missing.", "quantifier": "every pair of meshes, including ones with missing entries", "why_tests_cant": "all pairs; shifting of the missing value wraps around only in rare states", "anchors": ["libs/MeshKernel/src/Mesh.cpp: Mesh::operator+=, Join", "libs/MeshKernel/src/Mesh2D.cpp: Mesh2D::Merge"]}
{"id": "C19", "title": "Every detected face is a simple closed cycle of mesh edges", "statement": "After administration each face has between 3 and 6 nodes, all different, as many edges as nodes, its i-th edge joins its i-th and (i+1)-th node (cyclically), and the face is not oriented clockwise.", "quantifier": "every mesh with any topology and geometry", "why_tests_cant": "arbitrary, also non-planar, meshes", "anchors": ["libs/MeshKernel/src/Mesh2D.cpp: Mesh2D::FindFaces, FindFacesRecursive"]}
{"id": "C20", "title": "Edge-face and face-edge tables are inverse to each other and no edge has more than two faces", "statement": "After administration every edge has at most two faces, its recorded number of faces is the number of faces whose edge list contains it, the recorded faces are exactly those, and every face lists exactly the edges that record it.", "quantifier": "every mesh", "why_tests_cant": "arbitrary topologies incl. non-manifold", "anchors": ["libs/MeshKernel/src/Mesh2D.cpp: Mesh2D::FindFacesRecursive, m_edgesFaces, m_edgesNumFaces, m_facesEdges"]}
{"id": "C21", "title": "Face detection never reads or writes out of range and always terminates", "statement": "For every mesh whose edges refer to existing nodes, face detection finishes, never indexes outside a table and never reports an invalid edge.", "quantifier": "every well-formed mesh", "why_tests_cant": "memory safety for all inputs", "anchors": ["libs/MeshKernel/src/Mesh2D.cpp: Mesh2D::FindFacesRecursive, FindFaces"]}
{"id": "C22", "title": "Triangulating a face adds exactly its diagonals from the first node", "statement": "Triangulating faces adds for each face with n nodes exactly n-3 edges, all starting at the first node of the face and ending at its nodes 2..n-2; existing nodes and edges are unchanged and undo restores the mesh.", "quantifier": "every mesh and set of faces", "why_tests_cant": "all faces", "anchors": ["libs/MeshKernel/src/Mesh2D.cpp: Mesh2D::TriangulateFaces"]}
{"id": "C23", "title": "Disconnected regions are labelled by edge-connectivity and only the largest survives", "statement": "Two faces get the same region label if and only if they are linked by a chain of faces sharing edges; the reported size of a region is its number of faces; after removal precisely the edges of faces outside one largest region have been deleted.", "quantifier": "every face-adjacency structure", "why_tests_cant": "all graphs", "anchors": ["libs/MeshKernel/src/RemoveDisconnectedRegions.cpp: LabelConnectedRegion, LabelAllDomainRegions, Compute"]}
{"id": "C24", "title": "Curvilinear (row, column) indices and linear node indices are inverse to each other", "statement": "For every grid with at least one column, converting (n,m) to a node index and back is the identity and the indices of all nodes are exactly 0..rows*columns-1.", "quantifier": "every grid size", "why_tests_cant": "all sizes", "anchors": ["libs/MeshKernel/include/MeshKernel/CurvilinearGrid/CurvilinearGrid.hpp: GetNodeIndex, GetCurvilinearGridNodeIndices"]}
{"id": "C25", "title": "The unstructured view of a curvilinear grid has exactly the grid lines as edges", "statement": "Converting a rows x columns grid gives rows*columns nodes in row-major order and exactly (rows-1)*columns + rows*(columns-1) edges; two nodes are joined by an edge if and only if they are horizontal or vertical grid neighbours, and then by exactly one edge.", "quantifier": "every grid size", "why_tests_cant": "all sizes", "anchors": ["libs/MeshKernel/src/CurvilinearGrid/CurvilinearGrid.cpp: ComputeEdges, ComputeNodes, ComputeEdgeIndices, ConvertCurvilinearToNodesAndEdges"]}
{"id": "C26", "title": "Removing stray nodes keeps exactly the nodes of complete cells", "statement": "After administration of a curvilinear grid a node is valid if and only if it belonged to a cell all four of whose corner nodes were valid; the set of complete cells is unchanged; the process terminates and is idempotent.", "quantifier": "every grid size and every pattern of missing nodes", "why_tests_cant": "all masks; recursion depth depends on the input", "anchors": ["libs/MeshKernel/src/CurvilinearGrid/CurvilinearGrid.cpp: RemoveInvalidNodes, ComputeGridFacesMask"]}
{"id": "C27", "title": "Boundary extraction returns the edges of exactly one cell, as closed polygons", "statement": "For any block of any curvilinear grid the boundary edges are exactly the grid edges that belong to exactly one complete cell of the block; tracing them always closes every polygon and uses each boundary edge exactly once.", "quantifier": "every grid, mask and block", "why_tests_cant": "the closing argument is a parity argument over all masks", "anchors": ["libs/MeshKernel/src/CurvilinearGrid/CurvilinearGrid.cpp: ComputeBoundaryEdges, ComputeBoundaryPolygons", "libs/MeshKernelApi/src/MeshKernel.cpp: mkernel_curvilinear_get_boundaries_as_polygons"]}
{"id": "C28", "title": "Undoing a curvilinear delete restores the grid exactly", "statement": "After deleting a node, the interior or the exterior of a block from a curvilinear grid, undo gives back exactly the node coordinates before the deletion.", "quantifier": "every grid and every block or node", "why_tests_cant": "all grids and blocks", "anchors": ["libs/MeshKernel/src/CurvilinearGrid/CurvilinearGridDeleteExterior.cpp", "libs/MeshKernel/src/CurvilinearGrid/CurvilinearGridDeleteInterior.cpp", "libs/MeshKernel/src/CurvilinearGrid/CurvilinearGrid.cpp: DeleteNode, RestoreAction"]}
{"id": "C29", "title": "Grid refinement and de-refinement keep the untouched lines and give the promised size", "statement": "Refining k cells of a grid with a factor r in one direction gives a grid with k*(r-1) more lines; the original grid lines appear in it, in order, and outside the refined block nothing moves. De-refining a block of k cells removes exactly k-1 lines.", "quantifier": "every grid size, block and factor", "why_tests_cant": "all sizes and factors", "anchors": ["libs/MeshKernel/src/CurvilinearGrid/CurvilinearGridRefinement.cpp", "libs/MeshKernel/src/CurvilinearGrid/CurvilinearGridFullRefinement.cpp", "libs/MeshKernel/src/CurvilinearGrid/CurvilinearGridDeRefinement.cpp"]}
{"id": "C30", "title": "Adding a grid line is reversible", "statement": "Adding a line at any of the four sides and undoing it gives back a grid with the same size and the same visible nodes; redoing gives the extended grid back.", "quantifier": "every grid, every side, every sequence of add/undo/redo", "why_tests_cant": "all sequences", "anchors": ["libs/MeshKernel/src/CurvilinearGrid/CurvilinearGrid.cpp: AddGridLineAtBoundary, RestoreAction(AddGridLineUndoAction), CommitAction(AddGridLineUndoAction)"]}
{"id": "C31", "title": "Selecting a block by two corners is independent of the order in which they are given", "statement": "The block computed from two corner indices is the same for any order of the corners, contains both corners, and indices outside the grid are rejected.", "quantifier": "every pair of indices", "why_tests_cant": "all pairs", "anchors": ["libs/MeshKernel/src/CurvilinearGrid/CurvilinearGrid.cpp: ComputeBlockFromCornerPoints"]}
{"id": "C32", "title": "Copying a curvilinear grid gives an equal grid", "statement": "A copy of a curvilinear grid has the same projection, the same size and the same nodes as the original.", "quantifier": "every grid incl. ones with hidden margin lines", "why_tests_cant": "states with non-zero offsets or spherical projection are rarely tested", "anchors": ["libs/MeshKernel/src/CurvilinearGrid/CurvilinearGrid.cpp: CurvilinearGrid::CurvilinearGrid(const CurvilinearGrid&)"]}
{"id": "C33", "title": "State ids are fresh, and unknown ids are rejected without side effects", "statement": "mkernel_allocate_state never returns an id that was returned before (also not one since deallocated or expunged); a call with an id that is not live returns an error and changes nothing.", "quantifier": "every history of allocate, deallocate, expunge, clear and other calls", "why_tests_cant": "all histories", "anchors": ["libs/MeshKernelApi/src/MeshKernel.cpp: mkernel_allocate_state, mkernel_deallocate_state, mkernel_expunge_state, mkernel_get_projection, mkernel_mesh2d_get_closest_node"]}
{"id": "C34", "title": "A call on one id never affects another id", "statement": "Every API call that takes a kernel id changes only the state stored under that id.", "quantifier": "every pair of ids, every call", "why_tests_cant": "all histories", "anchors": ["libs/MeshKernelApi/src/MeshKernel.cpp: meshKernelState, meshKernelUndoStack"]}
{"id": "C35", "title": "Undo after replacing or converting a whole mesh or network gives the earlier content back", "statement": "For mesh2d set, mesh1d set, network1d set, curvilinear generation, convert-to-mesh2d, deallocate and projection conversion, undo gives the id back the content (including the projection) it had before.", "quantifier": "every state content and call", "why_tests_cant": "all contents", "anchors": ["libs/MeshKernelApi/src/MKStateUndoAction.cpp", "libs/MeshKernelApi/src/MeshKernel.cpp: mkernel_network1d_set, mkernel_mesh2d_convert_projection, mkernel_deallocate_state"]}
{"id": "C36", "title": "Undo reports the id whose content it changed, and per-id undo accounting is right for every edit", "statement": "Whenever an edit through a kernel id registers an undo action, that action is accounted to this id.", "quantifier": "every editing API call", "why_tests_cant": "the registering code is repeated at some hundred call sites", "anchors": ["libs/MeshKernelApi/src/MeshKernel.cpp: meshKernelUndoStack.Add call sites, mkernel_mesh2d_snap_to_landboundary"]}
{"id": "C37", "title": "Geometry lists convert to points and back without loss", "statement": "Writing points into a geometry list and reading the list back gives the same points in the same order; reading a list of k polylines separated by the separator gives exactly those polylines.", "quantifier": "every list of points / polylines", "why_tests_cant": "all lists", "anchors": ["libs/MeshKernelApi/include/MeshKernelApi/Utils.hpp: ConvertGeometryListToPointVector, ConvertPointVectorToGeometryList, ConvertVectorToGeometryList"]}
{"id": "C38", "title": "Splitting at separators returns exactly the maximal runs of valid points", "statement": "Splitting a point sequence at separators returns, in order, index ranges that are inside the scanned part, contain no separator, are maximal, disjoint, and together cover every non-separator point that lies in a run of at least two.", "quantifier": "every point sequence, start and end index", "why_tests_cant": "all sequences and windows", "anchors": ["libs/MeshKernel/src/Operations.cpp: FindIndices"]}
{"id": "C39", "title": "Polygons are decomposed into enclosures and written back unchanged", "statement": "Building polygons from a point list (outer polygons separated by the outer separator, inner ones by the inner separator) and writing all enclosures back gives a list with the same closed polygons in the same order.", "quantifier": "every list of closed polygons with any number of holes", "why_tests_cant": "all lists", "anchors": ["libs/MeshKernel/src/Polygons.cpp: Polygons::Polygons, GatherAllEnclosureNodes", "libs/MeshKernel/src/PolygonalEnclosure.cpp"]}
{"id": "C40", "title": "Point-in-polygon answers do not depend on where the polygon starts or its orientation, and are right", "statement": "For every closed polygon the cartesian containment test gives the same answer if the polygon is rotated (another start vertex) or reversed, all points on the boundary are inside, and for convex polygons exactly the points of the convex region are inside.", "quantifier": "every polygon and point (exact arithmetic)", "why_tests_cant": "all polygons, degenerate alignments", "anchors": ["libs/MeshKernel/src/Polygon.cpp: Polygon::ContainsCartesian", "libs/MeshKernel/src/Operations.cpp: IsPointInPolygonNodes"]}
{"id": "C41", "title": "A point is inside a set of polygons iff it is inside one of them and not in its holes", "statement": "The containment test for a list of polygons with holes answers yes exactly if some polygon of the list contains the point in its outer ring and in none of its holes.", "quantifier": "every list of polygons, every point", "why_tests_cant": "nested islands in holes", "anchors": ["libs/MeshKernel/src/Polygons.cpp: IsPointInPolygons, PointInRegion"]}
{"id": "C42", "title": "Circular index arithmetic stays in range and forward/backward are inverse", "statement": "For every size and every index in range the next and previous circular index are in range and undo one another, and going round size times returns to the start; an index out of range is rejected.", "quantifier": "every size and index", "why_tests_cant": "all sizes", "anchors": ["libs/MeshKernel/src/Operations.cpp: NextCircularForwardIndex, NextCircularBackwardIndex", "libs/MeshKernel/include/MeshKernel/Utilities/NumericFunctions.hpp: RotateIndex"]}
{"id": "C43", "title": "Bounding boxes are the smallest boxes containing all valid points", "statement": "The box of a point list contains every valid point and each of its four sides is attained by a valid point; boxes overlap exactly if they share a point; merging gives the smallest box containing both.", "quantifier": "every list of points / boxes", "why_tests_cant": "all lists", "anchors": ["libs/MeshKernel/include/MeshKernel/BoundingBox.hpp: Reset, Contains, Overlaps, Merge"]}
{"id": "C44", "title": "Range checks accept exactly the documented range", "statement": "Each parameter range check raises a range error exactly if the value is outside the documented (open, closed, half-open, one-of) range, for every value.", "quantifier": "every value and every bound", "why_tests_cant": "all boundary values", "anchors": ["libs/MeshKernel/include/MeshKernel/RangeCheck.hpp"]}
{"id": "C45", "title": "Matrix row and column edits move exactly the intended entries", "statement": "Inserting, erasing and swapping rows and columns leaves every other row and column unchanged and in order; erase undoes insert, swapping twice is the identity, invalid indices are rejected without change.", "quantifier": "every matrix size, content and index", "why_tests_cant": "all sizes", "anchors": ["libs/MeshKernel/include/MeshKernel/Utilities/LinearAlgebra.hpp: EraseRows, EraseCols, InsertRow, InsertCol, SwapRows, SwapColumns"]}
{"id": "C46", "title": "Sorting and reordering are permutations and consistent with each other", "statement": "The sorted index list is a permutation of 0..n-1 whose image is in non-decreasing order; reordering a vector by an index list puts exactly the element with that index at each place; in-place reordering of a matrix row gives the same result as out-of-place.", "quantifier": "every vector", "why_tests_cant": "all vectors and permutations", "anchors": ["libs/MeshKernel/include/MeshKernel/Operations.hpp: SortedIndices, ReorderVector", "libs/MeshKernel/include/MeshKernel/Utilities/LinearAlgebra.hpp: SortRow, ReorderRow, ReorderCol"]}
{"id": "C47", "title": "Averaged values lie within the range of the averaged samples", "statement": "For every averaging method the value computed from a non-empty list of samples lies between the smallest and the largest sample value (of absolute values for the minimum-absolute method), max, min and closest return a sample's value, and with no samples the missing value is returned.", "quantifier": "every sample list (exact arithmetic)", "why_tests_cant": "all sample sets", "anchors": ["libs/MeshKernel/src/AveragingStrategies/*.cpp"]}
{"id": "C48", "title": "A 1D mesh made from a network connects consecutive discretisation points of every polyline", "statement": "Converting a network to a 1D mesh gives, before merging close nodes, all discretisation points of all polylines in order, and exactly the edges joining consecutive points of the same polyline.", "quantifier": "every number of polylines and points", "why_tests_cant": "the number of polylines is unbounded; tests use one or two", "anchors": ["libs/MeshKernel/src/Mesh1D.cpp: Mesh1D::Mesh1D(Network1D&, double)"]}
{"id": "C49", "title": "Contacts are well-formed pairs", "statement": "Every computed contact pairs an existing 1D node with an existing 2D face, the two index lists have equal length, only unmasked 1D nodes get contacts, and recomputing gives the same contacts as computing once.", "quantifier": "every mesh pair, mask and geometry", "why_tests_cant": "all geometries and repeated calls", "anchors": ["libs/MeshKernel/src/Contacts.cpp", "libs/MeshKernelApi/src/MeshKernel.cpp: mkernel_contacts_compute_single etc."]}
{"id": "C50", "title": "Approximate equality is reflexive, symmetric and detects the missing value", "statement": "The approximate comparison of two floating-point numbers is symmetric, true of every number with itself, false whenever a NaN is involved; a point built by default is recognised as invalid and a point is valid exactly if neither coordinate compares equal to the missing value.", "quantifier": "every pair of IEEE doubles", "why_tests_cant": "2^128 pairs", "anchors": ["libs/MeshKernel/include/MeshKernel/Utilities/NumericFunctions.hpp: IsEqual", "libs/MeshKernel/include/MeshKernel/Point.hpp: IsValid"]}
{"id": "C51", "title": "Collecting a row of cells to split terminates and crosses every cell of the row once", "statement": "Splitting along a row starting at an edge follows opposite edges of quadrilaterals in both directions, always stops, collects no edge twice and exactly the edges of the row, whatever the mesh looks like.", "quantifier": "every mesh and every edge", "why_tests_cant": "closed loops, self-crossing rows", "anchors": ["libs/MeshKernel/src/SplitRowColumnOfMesh.cpp: CollectElementsOneSideOfEdge, GetNextEdge"]}
{"id": "C52", "title": "Extracting a curvilinear grid from a mesh never places two nodes at one grid position", "statement": "The conversion of a mesh to a curvilinear grid gives each visited mesh node one grid position, distinct nodes distinct positions, and nodes at neighbouring positions of a collected cell are joined by a mesh edge.", "quantifier": "every mesh and starting point", "why_tests_cant": "all meshes, incl. overlapping sheets", "anchors": ["libs/MeshKernel/src/Mesh2DToCurvilinear.cpp: Compute, ComputeNeighbouringFaceNodes, IsConnectionValid"]}
{"id": "C53", "title": "Signed area is translation and rotation-of-start invariant and changes sign under reversal", "statement": "The signed area computed for a polygon is the same for every start vertex and after translation, and changes sign when the polygon is reversed; orientation is derived from its sign.", "quantifier": "every polygon (exact arithmetic)", "why_tests_cant": "all polygons", "anchors": ["libs/MeshKernel/src/Polygon.cpp: FaceAreaAndCenterOfMass"]}
{"id": "C54", "title": "Face-polygon dimension equals the length of the face-polygon data", "statement": "The size reported for the list of face polygons equals the number of coordinates then written, for every mesh and every requested number of edges.", "quantifier": "every mesh and number of edges", "why_tests_cant": "buffer sizes for all meshes", "anchors": ["libs/MeshKernelApi/src/MeshKernel.cpp: mkernel_mesh2d_get_face_polygons_dimension, mkernel_mesh2d_get_face_polygons"]}
{"id": "C55", "title": "Deleting hanging edges removes exactly the edges ending in a node of degree one", "statement": "The hanging edges reported are exactly the edges with an end node that has only this edge; deleting hanging edges deletes these, nothing else, and is undoable.", "quantifier": "every mesh", "why_tests_cant": "all meshes", "anchors": ["libs/MeshKernel/src/Mesh2D.cpp: GetHangingEdges, DeleteHangingEdges"]}
{"id": "C56", "title": "Undo and redo never touch a destroyed object", "statement": "Whatever calls were made before, the action that the next undo or redo executes belongs to an id that still exists, and every object it edits is one this id currently holds.", "quantifier": "every sequence of API calls, any number of ids", "why_tests_cant": "a use after free shows only for some orders of edits, replacements, undo and expunge", "anchors": ["libs/MeshKernelApi/src/MeshKernel.cpp: mkernel_undo_state, mkernel_redo_state, mkernel_expunge_state, mkernel_mesh2d_snap_to_landboundary", "libs/MeshKernelApi/src/MKStateUndoAction.cpp"]}
{"id": "C57", "title": "A call that returns an error changes nothing", "statement": "If an API call returns a non-zero exit code, the contents of all ids, the existing ids and both undo stacks are as before the call.", "quantifier": "every state and every call", "why_tests_cant": "all error paths in all states", "anchors": ["libs/MeshKernelApi/src/MeshKernel.cpp: mkernel_contacts_compute_single etc., HandleException"]}
{"id": "C58", "title": "Inserting a face extends the border by exactly two nodes and is reversible", "statement": "Inserting a face at a border edge adds a line beside that border only if the new nodes do not fit in the grid, sets exactly the two nodes beside the edge that were not there to the extrapolated positions, leaves every other node as it was, and undo gives the old grid back.", "quantifier": "every grid and every border edge", "why_tests_cant": "all grids with holes and borders on all four sides", "anchors": ["libs/MeshKernel/src/CurvilinearGrid/CurvilinearGrid.cpp: InsertFace, AddEdge, AddGridLineAtBoundary, GetBoundaryGridLineType"]}
{"id": "C60", "title": "Deleting outside polygons keeps exactly the nodes of cells that are inside", "statement": "After deleting the part of the grid outside polygons the nodes left are exactly those of complete cells all of whose corners are inside; all others are missing.", "quantifier": "every grid and every inside test", "why_tests_cant": "all shapes of the inside part", "anchors": ["libs/MeshKernel/src/CurvilinearGrid/CurvilinearGrid.cpp: Delete"]}
{"id": "C61", "title": "Node types describe the complete cells around a node", "statement": "The type computed for a node is determined by which of the four cells around it are complete: none gives invalid, all four inner, two adjacent ones a side, and one or three a corner.", "quantifier": "every grid and node", "why_tests_cant": "all combinations of cells around all nodes", "anchors": ["libs/MeshKernel/src/CurvilinearGrid/CurvilinearGrid.cpp: ComputeGridNodeTypes"]}
{"id": "C62", "title": "The face search finds every face once and misses none", "statement": "No two faces found have the same edges; every face is a walk that takes the neighbouring edge at each node; faces are listed by increasing number of nodes. Every simple, not clockwise walk of three to six edges that takes the neighbouring edge at each node has its edges used up: one has two faces, or each has one face and two of them the same.", "quantifier": "every mesh, order of edges around nodes and orientation test", "why_tests_cant": "quantifies over all meshes and all walks", "anchors": ["libs/MeshKernel/src/Mesh2D.cpp: FindFaces, FindFacesRecursive, HasDuplicateNodes, HasDuplicateEdgeFaces"]}
{"id": "C63", "title": "Fixed chainages keep both ends of the polyline and get a point on each side", "statement": "Computing fixed chainages keeps the start and end chainage of every polyline, adds only chainages between them, and gives every fixed chainage that is far enough from its neighbours one grid point at the given offset on each side.", "quantifier": "every list of fixed chainages, offset and minimum size (exact arithmetic)", "why_tests_cant": "all lists of chainages, in particular one at the start or beyond the end", "anchors": ["libs/MeshKernel/src/Network1D.cpp: ComputeFixedChainages"]}
{"id": "C64", "title": "Discretisation points lie on the polyline", "statement": "Discretising a polyline gives for every chainage, in increasing order, the point of the polyline at that distance from its start, and never reads out of range.", "quantifier": "every polyline and list of chainages (exact arithmetic)", "why_tests_cant": "chainages and segments interleave in unboundedly many ways", "anchors": ["libs/MeshKernel/src/Operations.cpp: ComputePolyLineDiscretization"]}
{"id": "C65", "title": "Offset chainages leave no gap larger than the offset", "statement": "Computing chainages at an offset keeps all chainages, adds only chainages between existing ones, and afterwards consecutive chainages are at most the offset apart.", "quantifier": "every list of chainages and positive offset (exact arithmetic)", "why_tests_cant": "unbounded lists and lengths", "anchors": ["libs/MeshKernel/src/Network1D.cpp: ComputeOffsettedChainages"]}
{"id": "C66", "title": "Averaging on a mesh", "statement": "Averaging samples on a mesh gives every node the missing value or a value within the range of all samples, every edge the mean of its ends or the missing value, and, when samples are to be transformed, lowers by exactly one those samples that some face with a positive result refers to and no others, however many faces refer to them.", "quantifier": "every mesh, list of samples and search result (exact arithmetic)", "why_tests_cant": "faces share samples in unboundedly many ways, and the result of one face depends on the samples lowered for earlier ones", "anchors": ["libs/MeshKernel/src/AveragingInterpolation.cpp: Compute, ComputeOnPolygon"]}
{"id": "C67", "title": "Finding the face of a point", "statement": "Mesh2D::PointFaceIndices gives for every point the index of an existing face that contains the point, and the missing index only if no face contains it.", "quantifier": "all meshes with faces, all lists of points, all answers of the edge search tree that name existing edges", "why_tests_cant": "the tests use near-square faces, where the nearest edge centre always belongs to the containing face; the answer for long faces depends on the shape of all neighbouring faces", "anchors": ["libs/MeshKernel/src/Mesh2D.cpp:1882-1913 PointFaceIndices", "libs/MeshKernel/src/Mesh.cpp:673-710 FindLocationIndex"]}
{"id": "C69", "title": "Splitting a row cuts its edges in the middle and can be undone", "statement": "Splitting the row of an edge replaces the edges of the row between quadrilaterals by two halves joined in new nodes at their middles, joins the middles of opposite edges of every cell of the row, or the middle to both ends of an edge that is kept because the row ends there beside another kind of cell, changes nothing else, fails only for edges that do not exist, and undoing it gives back the mesh.", "quantifier": "every consistent mesh, every edge, all shapes of rows", "why_tests_cant": "rows of any length, open, closed and crossing themselves; all histories of undo and redo", "anchors": ["libs/MeshKernel/src/SplitRowColumnOfMesh.cpp: Compute, SplitAlongRow, SplitElement, SplitFirstLoopElement, GetNextElement, GetPreviousElement"]}
{"id": "C70", "title": "Converting a mesh that is a grid gives back the grid", "statement": "If the quadrilaterals of a mesh are cells of a grid, that is, its nodes have distinct integer places, every quadrilateral lies at a unit square and nodes at neighbouring places are joined, the conversion collects exactly the quadrilaterals that are reached from the first one over shared edges, and every node of them gets its place; a converter can be used again with the same result.", "quantifier": "every mesh, every shape of the part covered by quadrilaterals, every starting cell and every order of the edges around nodes", "why_tests_cant": "parts with holes and several branches of any shape; the test of a connection looks at cells collected before, so the outcome could depend on the order of collection", "anchors": ["libs/MeshKernel/src/Mesh2DToCurvilinear.cpp: Compute, ComputeNeighbouringFaceNodes, IsConnectionValid, CheckGridLine"]}
{"id": "C71", "title": "Flipping edges keeps all tables in step and ends with nothing left to flip", "statement": "FlipEdges turns an edge only between two triangles, only if the change is wanted and the diagonals cross; after every flip all tables of the mesh (ends of edges, edges around nodes, nodes and edges of faces, faces of edges) describe the new mesh; when it returns normally no such edge is left, unless it met a face that is no triangle; it fails only after at least ten flips; and its action undoes everything.", "quantifier": "every consistent mesh, every order of edges around nodes, every crossing test and node types, with and without triangulation", "why_tests_cant": "every flip changes the tables the next decision is made on; any number of flips and passes", "anchors": ["libs/MeshKernel/src/FlipEdges.cpp:54-275 Compute, DeleteEdgeFromNode", "libs/MeshKernel/src/FlipEdges.cpp:277-400 ComputeTopologyFunctional"]}
{"id": "C72", "title": "Flipping edges lowers the distance from the wanted numbers of edges", "statement": "Without land boundaries every flip lowers the sum over all nodes of the squared difference between the number of edges and the number wanted for the type of node; so no more flips are made than this sum, and the algorithm does not fail if the sum is below ten.", "quantifier": "every consistent mesh and any number of flips", "why_tests_cant": "a potential argument over all sequences of flips", "anchors": ["libs/MeshKernel/src/FlipEdges.cpp:350-399 ComputeTopologyFunctional", "libs/MeshKernel/src/FlipEdges.cpp:514-527 OptimalNumberOfConnectedNodes"]}
{"id": "C73", "title": "Node types", "statement": "ClassifyNodes gives every node one of the types hanging, internal, boundary and corner, without reading out of range: hanging for fewer than two edges, internal without boundary edges, corner with more than two boundary edges or only two edges or a sharp angle, boundary otherwise; the types do not depend on the numbering of the edges.", "quantifier": "every mesh with faces", "why_tests_cant": "the type of a node depends on the marks that earlier edges left at both ends", "anchors": ["libs/MeshKernel/src/Mesh2D.cpp:658-753 ClassifyNodes"]}
{"id": "C74", "title": "Brother edges", "statement": "FindBrotherEdges pairs exactly the edges that follow each other at a node, are sides of a common face and have the node in the middle of their other ends; the pairing is mutual: the brother of the brother of an edge is the edge.", "quantifier": "every mesh with tables in step, every test for the middle", "why_tests_cant": "the pairs written at one node can be overwritten at another; any number of edges in a line", "anchors": ["libs/MeshKernel/src/MeshRefinement.cpp:1380-1437 FindBrotherEdges"]}
{"id": "C75", "title": "The marks spread to the least closed set", "statement": "ComputeIfFaceShouldBeSplit only adds marks, adds them only on edges of faces it decides to split, decides only faces that must be split, and ends with the smallest set of marks that contains the given ones and under which every face that must be split has all its edges marked apart from the hanging ones.", "quantifier": "every mesh with tables in step, all masks, fewer than a thousand unmarked edges", "why_tests_cant": "fixpoint over all faces; splitting one face can force its neighbours in any order", "anchors": ["libs/MeshKernel/src/MeshRefinement.cpp:1290-1378 ComputeIfFaceShouldBeSplit", "libs/MeshKernel/src/MeshRefinement.cpp:813-875 FindHangingNodes"]}
{"id": "C76", "title": "One step of refinement splits exactly what is marked", "statement": "RefineFacesBySplittingEdges adds one node in the middle of every marked edge, one in the centre of every marked face with more than two points on its sides (four edges or more), joins the points on the sides to it or to each other, replaces every marked edge by its two halves, extends the node mask, keeps the mesh consistent, never reads out of range, and its action undoes it.", "quantifier": "every mesh with tables in step, all masks on sides of faces", "why_tests_cant": "numbering of the new nodes and edges over any number of marked edges and faces", "anchors": ["libs/MeshKernel/src/MeshRefinement.cpp:497-753 RefineFacesBySplittingEdges"]}
{"id": "C77", "title": "Hanging nodes are connected", "statement": "ConnectHangingNodes adds, for every face with three or four sides, exactly the edges that join its hanging nodes to corners or to each other, so that every hanging node gets an edge inside the face; everything else stays and the action undoes it.", "quantifier": "every mesh with tables in step, all brother tables", "why_tests_cant": "all positions of the hanging nodes around a face and all faces", "anchors": ["libs/MeshKernel/src/MeshRefinement.cpp:230-496 ConnectHangingNodes"]}
{"id": "C78", "title": "Refinement as a whole is safe and can be undone", "statement": "MeshRefinement::Compute never reads out of range for any number of levels; when it returns, the tables describe the new mesh, no node has moved, and the returned action undoes and redoes the whole refinement.", "quantifier": "every consistent mesh, both kinds of criteria, any number of levels, with and without connecting hanging nodes", "why_tests_cant": "caches and masks are carried over from level to level", "anchors": ["libs/MeshKernel/src/MeshRefinement.cpp:84-210 Compute"]}
{"id": "C79", "title": "The masks of refinement", "statement": "The mask by size marks the sides that are not too small and the faces with such a side; the perimeter mask and the limitation of faces depend only on the selection; ComputeEdgesRefinementMask marks only edges of faces to refine, all edges asked for, and its result does not depend on the numbering of the nodes.", "quantifier": "every mesh with tables in step, all masks", "why_tests_cant": "a stale count of hanging edges and a vector kept from face to face influence later faces", "anchors": ["libs/MeshKernel/src/MeshRefinement.cpp:212-228 ComputeRefinementMaskFromEdgeSize", "libs/MeshKernel/src/MeshRefinement.cpp:755-811 ComputeNodeMaskAtPolygonPerimeter", "libs/MeshKernel/src/MeshRefinement.cpp:1145-1288 ComputeEdgesRefinementMask", "libs/MeshKernel/src/MeshRefinement.cpp:1439-1520 SmoothRefinementMasks"]}
{"id": "C80", "title": "Refining everything divides every face in four", "statement": "If all nodes are selected and no edge is too small, one level of refinement halves every side of a face, divides every triangle into four triangles and every quadrilateral into four around its centre, with the numbering stated.", "quantifier": "every consistent mesh of triangles and quadrilaterals without hanging nodes", "why_tests_cant": "composition of all masks, the step and the administration, for any number of faces", "anchors": ["libs/MeshKernel/src/MeshRefinement.cpp:84-210 Compute", "libs/MeshKernel/src/MeshRefinement.cpp:497-753 RefineFacesBySplittingEdges"]}
{"id": "C81", "title": "The nearest land boundary segment is found", "statement": "For every land boundary, range and point the search finds the first segment nearest to the point among those with two valid points, and reports its distance, nearest point and ratio; with none it reports none.", "quantifier": "all land boundaries, ranges within them, points and distance functions", "why_tests_cant": "The minimum over arbitrarily many segments with separators in between, and ties, are not covered by a few polylines; a point lying on a segment is a rare case in tests.", "anchors": ["libs/MeshKernel/src/LandBoundaries.cpp:940-974"]}
{"id": "C82", "title": "An edge is close to a land boundary piece exactly if one of its segments is near", "statement": "The alternating search over the segments of a piece visits every segment and finds one exactly if a segment of positive length is nearer to an end of the edge than the edge length times the factor; the first one the end projects on is preferred.", "quantifier": "all land boundaries, pieces, meshes, edges and factors", "why_tests_cant": "The search jumps back and forth with index arithmetic that must neither skip nor leave the piece, for every length and start.", "anchors": ["libs/MeshKernel/src/LandBoundaries.cpp:643-731"]}
{"id": "C83", "title": "The nodes marked for a piece are those of the faces along it", "statement": "The nodes marked are exactly the nodes inside the polygon of the faces reached from the first face met by the piece, across edges, through faces with a close edge; without a face met, of the boundary faces with a close edge.", "quantifier": "all meshes with tables in step, all land boundaries and pieces", "why_tests_cant": "A flood fill over arbitrary meshes: termination, nothing skipped and nothing marked too much need an invariant.", "anchors": ["libs/MeshKernel/src/LandBoundaries.cpp:461-641"]}
{"id": "C84", "title": "The path along a piece is a shortest path", "statement": "The edges recorded by the search lead from every reached node back to the start over marked nodes, and no path over marked nodes is shorter in the weighted length, with the rounding of the sums; the search stops.", "quantifier": "all meshes, masks, starts, pieces and distances that are numbers", "why_tests_cant": "Optimality over all paths in all graphs, with rounded sums of doubles, cannot be enumerated.", "anchors": ["libs/MeshKernel/src/LandBoundaries.cpp:822-938"]}
{"id": "C85", "title": "The nodes of the path that fit get the piece, all others keep theirs", "statement": "The path runs between the mesh nodes nearest to the end points of the piece; its nodes within twice the distance of the nearest land boundary, nearer than their former piece and (for the outer boundary) on the boundary of the mesh get the piece, except single ones; no other node changes.", "quantifier": "all meshes, land boundaries, pieces, states", "why_tests_cant": "The rule for single nodes depends on the order along paths of any length.", "anchors": ["libs/MeshKernel/src/LandBoundaries.cpp:332-459", "libs/MeshKernel/src/LandBoundaries.cpp:733-820"]}
{"id": "C86", "title": "All pieces are assigned and all indices stay in range", "statement": "Finding the nearest land boundary runs over every piece in turn, repeats a path without the restriction to the boundary where asked, then gives boundary nodes without a piece the piece of the nearest segment or a new one; old assignments are kept and all indices stay in range.", "quantifier": "all meshes, land boundaries, polygons, node types and projection choices", "why_tests_cant": "Pieces are appended while the nodes are walked; index safety holds only by an invariant over all steps.", "anchors": ["libs/MeshKernel/src/LandBoundaries.cpp:101-330"]}
{"id": "C87", "title": "Snapping moves exactly the assigned nodes to their land boundary and can be undone", "statement": "Every inner, boundary and corner node with a piece moves to the nearest point of that piece, all other nodes stay; edges and tables stay as they are; undo and redo restore the meshes.", "quantifier": "all consistent meshes and assignments in range", "why_tests_cant": "All meshes and assignments; snapping again should change nothing, which fails only for nodes exactly on the land boundary.", "anchors": ["libs/MeshKernel/src/LandBoundaries.cpp:976-1030"]}
{"id": "C88", "title": "The land boundary is cut into pieces that cover what lies in the polygon", "statement": "The pieces are the runs of points between separators, selected by the polygon and cut in two at the middle; they do not overlap and stay within the land boundary.", "quantifier": "all land boundaries and polygons", "why_tests_cant": "All layouts of separators, including leading, trailing and repeated ones.", "anchors": ["libs/MeshKernel/src/LandBoundaries.cpp:52-99"]}
{"id": "C89", "title": "The node mask of the Casulli refinement", "statement": "Every node gets the mask its surroundings call for: nodes outside the polygon or without two edges of one face next to each other are left alone, corners, gaps and crowded nodes are kept as corners, other boundary nodes and inner nodes are replaced. A node marked as boundary has exactly two boundary edges, so the search for them never fails.", "quantifier": "all meshes, polygons and node types", "why_tests_cant": "The loops stop early and use running counts around every node of meshes of any shape.", "anchors": ["libs/MeshKernel/src/CasulliRefinement.cpp:57-204", "libs/MeshKernel/src/CasulliRefinement.cpp:224-254"]}
{"id": "C90", "title": "The new nodes of the Casulli refinement", "statement": "Every marked corner of a face gets a node half way to the centre of the face, every marked end of a boundary edge one a quarter along the edge, and the table of new nodes tells, for either side of every edge, what takes the place of its two ends. There are at most three new nodes for each edge.", "quantifier": "all meshes with faces that go along an edge in different directions and share at most one edge", "why_tests_cant": "The table is filled by position; a wrong slot shows only in particular orientations of edges and faces.", "anchors": ["libs/MeshKernel/src/CasulliRefinement.cpp:569-755"]}
{"id": "C91", "title": "The new edges of the Casulli refinement", "statement": "Exactly the edges along and across the old edges, around nodes of the boundary and at corners are added, in that order; nothing is added that is there already, and no diagonals.", "quantifier": "all meshes, polygons and node types", "why_tests_cant": "All arrangements of masks around every edge and node.", "anchors": ["libs/MeshKernel/src/CasulliRefinement.cpp:256-567"]}
{"id": "C92", "title": "The Casulli refinement as a whole", "statement": "The refinement succeeds; the nodes that were replaced are gone with their edges, every edge whose ends are left stays, new nodes and edges are numbered in order, the tables describe the refined mesh, and undo and redo restore the mesh before and after.", "quantifier": "all meshes, polygons and node types", "why_tests_cant": "Success and the exact result for every mesh cannot be tested.", "anchors": ["libs/MeshKernel/src/CasulliRefinement.cpp:41-55", "libs/MeshKernel/src/CasulliRefinement.cpp:206-222"]}
{"id": "C93", "title": "Lines selected on a curvilinear grid do not cross", "statement": "A line is accepted only if it joins two different nodes of the grid on one grid line; it is stored in order, and lines in different directions never have a node in common, whatever lines were set before. Lines beside each other should be accepted and lines on top of each other refused.", "quantifier": "all grids, all lists of lines set before, all pairs of nodes", "why_tests_cant": "The invariant holds over every sequence of accepted and refused lines.", "anchors": ["libs/MeshKernel/src/CurvilinearGrid/CurvilinearGridAlgorithm.cpp:56-94", "libs/MeshKernel/src/CurvilinearGrid/CurvilinearGridLine.cpp:35-72"]}
{"id": "C94", "title": "Smoothing a block moves exactly its nodes, each by its own surroundings", "statement": "Every pass takes all positions from before the pass: inner nodes move half way to the mean of their neighbours, nodes at a side are projected back on the side, corners and other nodes stay; nothing outside the block moves; undo restores the grid. The result depends only on the visible nodes.", "quantifier": "all grids, blocks, numbers of passes and projection functions", "why_tests_cant": "All shapes of grids with holes, all numbers of passes; reading a node that was already moved shows only in particular layouts.", "anchors": ["libs/MeshKernel/src/CurvilinearGrid/CurvilinearGridSmoothing.cpp:40-175", "libs/MeshKernel/src/CurvilinearGrid/CurvilinearGridSmoothing.cpp:235-285"]}
{"id": "C95", "title": "Directional smoothing moves the nodes beside a line along it", "statement": "Every pass moves the nodes beside the line, in the cells' directions, towards their farther neighbour by a weight that fades away across the block; nothing else moves; the grid installed afterwards shows the same nodes and keeps its projection, and undo restores the grid.", "quantifier": "all grids, lines, blocks and numbers of passes", "why_tests_cant": "Undo after any number of passes on any grid; aliasing of the saved grid is not visible in results of one call.", "anchors": ["libs/MeshKernel/src/CurvilinearGrid/CurvilinearGridSmoothing.cpp:67-125", "libs/MeshKernel/src/CurvilinearGrid/CurvilinearGridSmoothing.cpp:178-233", "libs/MeshKernelApi/src/MeshKernel.cpp:4480-4530"]}
{"id": "C96", "title": "Attraction to a line moves the nodes beside it towards it", "statement": "Every valid node beside the line moves across it by the mean length of its edges along the line times the factor, fading towards the border of the block; the line itself, missing nodes and all others stay; undo restores the grid. The result depends only on the visible nodes.", "quantifier": "all grids without hidden lines, lines, blocks and factors", "why_tests_cant": "All grids with missing neighbours at any side.", "anchors": ["libs/MeshKernel/src/CurvilinearGrid/CurvilinearGridLineAttractionRepulsion.cpp:38-119", "libs/MeshKernel/src/CurvilinearGrid/CurvilinearGrid.cpp:938-1040"]}
{"id": "C97", "title": "Shifting a line interpolates between the moved nodes and drags the block along", "statement": "Between two moved nodes the displacements of the line are interpolated, the nodes of the block follow by a factor that fades away across it, all others stay, and undoing all steps restores the grid. Missing nodes stay missing.", "quantifier": "all grids, lines, blocks and lists of moves", "why_tests_cant": "Any number of moves in any order, with nodes moved again; segments between them of any length.", "anchors": ["libs/MeshKernel/src/CurvilinearGrid/CurvilinearGridLineShift.cpp:39-175"]}
{"id": "C98", "title": "Mirroring a line adds one line of nodes at the side", "statement": "At every side of the grid one line is added, all nodes are kept, the nodes opposite to the line are extrapolated from the two lines behind them, the other new nodes are missing, and undo restores the grid.", "quantifier": "all grids, sides, lines at the side and positive factors", "why_tests_cant": "Four sides with different index arithmetic, hidden lines that are used again, lines of any length.", "anchors": ["libs/MeshKernel/src/CurvilinearGrid/CurvilinearGridLineMirror.cpp:39-137"]}
{"id": "C99", "title": "Snapping a grid puts the line on its nearest points and lets the neighbourhood follow", "statement": "The valid nodes of the line go to their nearest points, the nodes in reach follow by the expansion factor, all others and missing nodes stay, and undo restores the grid. The result depends only on the visible nodes.", "quantifier": "all grids, two to four control points, nearest-point and expansion functions", "why_tests_cant": "The nodes are moved one after the other while the factors are computed; all overlaps of their reach must be covered.", "anchors": ["libs/MeshKernel/src/CurvilinearGrid/CurvilinearGridSnapping.cpp:9-172"]}
{"id": "C100", "title": "Curvature of a grid at every interior node", "statement": "The matrix of curvatures has the size of the grid, a value for exactly the nodes with two neighbours in the direction, the missing value where a node is missing, and is never negative. The curvature of three nodes should not depend on the order in which they are read, be zero for a straight line and that of the circle for nodes on a circle.", "quantifier": "all grids with or without hidden lines, both directions, all nodes; all doubles for the sign", "why_tests_cant": "The formula multiplies by the cotangent of the angle at the last node; it takes special triples (right angles, reversed curves) to see that it is not a radius.", "anchors": ["libs/MeshKernel/src/CurvilinearGrid/CurvilinearGridCurvature.cpp:34-98"]}
{"id": "C101", "title": "Smoothness of a grid is at least one", "statement": "The matrix of smoothness values has the size of the grid, a value for exactly the nodes with two neighbours in the direction and the missing value elsewhere; the value is the ratio of the longer to the shorter edge: one for equal edges and edges without length, never below one, never NaN.", "quantifier": "all grids, both directions, all finite coordinates", "why_tests_cant": "Rounding of a quotient, a square root and a reciprocal: that one over a number below one is not below one holds for all doubles only by proof, and squares overflow for coordinates tests do not use.", "anchors": ["libs/MeshKernel/src/CurvilinearGrid/CurvilinearGridSmoothness.cpp:38-99"]}
{"id": "C102", "title": "A rectangular grid has every node at its multiple of the block vectors", "statement": "With positive numbers of rows and columns, positive block sizes and an angle strictly between -90 and 90 the grid has rows+1 by columns+1 nodes, node (n, m) being the origin plus m times the rotated block width plus n times the rotated block height; all other arguments are refused. In a polygon exactly the corners of cells inside it are left.", "quantifier": "all counts, origins, angles, block sizes, all inside tests", "why_tests_cant": "Sizes are unbounded and so are the combinations of invalid arguments and their order of checking.", "anchors": ["libs/MeshKernel/src/CurvilinearGrid/CurvilinearGridRectangular.cpp:40-118", "libs/MeshKernel/src/CurvilinearGrid/CurvilinearGridRectangular.cpp:221-295"]}
{"id": "C103", "title": "A spherical rectangular grid keeps its longitudes and climbs to the pole", "statement": "The latitudes follow the row-to-row rule from the first row, the longitudes are those of the rotated rectangle, and the grid ends at the first row (after the first) that touches a pole, or has the number of rows asked for.", "quantifier": "all counts, origins, angles, block sizes, cosine and sine functions", "why_tests_cant": "The number of rows depends on an iteration over latitudes; the row that is cut off must be right for every start and every block height.", "anchors": ["libs/MeshKernel/src/CurvilinearGrid/CurvilinearGridRectangular.cpp:120-186"]}
{"id": "C104", "title": "A rectangular grid on an extension covers it", "statement": "The number of columns and rows is the number of blocks to cover the extension, or for spherical grids the first number of steps that reaches the highest latitude or a pole; blocks larger than the extension are refused; the highest latitude or the pole in its direction is reached.", "quantifier": "all extensions and block sizes; all step counts", "why_tests_cant": "The count and the construction run the same iteration separately; that they agree, and what happens at the southern end, needs all start latitudes.", "anchors": ["libs/MeshKernel/src/CurvilinearGrid/CurvilinearGridRectangular.cpp:188-220", "libs/MeshKernel/src/CurvilinearGrid/CurvilinearGridRectangular.cpp:297-341"]}
{"id": "C105", "title": "Refining a polygon adds equal steps inside the chosen edges only", "statement": "Refine between two nodes keeps every node in order and inserts, inside exactly the edges from the first to the second node (around the polygon when the second comes first), the points at equal steps for the number of pieces of the edge; a closed polygon stays closed; indices outside the polygon are refused unless they are equal, when the nodes are returned unchanged.", "quantifier": "all polygons, index pairs and piece counts", "why_tests_cant": "The pieces before, between and after the two indices are assembled separately in each direction; that they fit together needs all lengths and index pairs.", "anchors": ["libs/MeshKernel/src/Polygon.cpp:281-300", "libs/MeshKernel/src/Polygon.cpp:379-445"]}
{"id": "C106", "title": "Linear refinement replaces the selected part only, by points on it", "statement": "When LinearRefine returns, the nodes outside the selection are kept in order and the selection is replaced by at least two and at most twice as many points, each between two neighbours of the selection, and every point has been set; fewer than four nodes or equal indices change nothing; indices outside are refused; no vector is read outside its bounds.", "quantifier": "all polygons, index pairs, distance functions and numbers of rounds", "why_tests_cant": "Two nested iterations insert and remove distances; the sizes of four vectors have to agree after any number of rounds.", "anchors": ["libs/MeshKernel/src/Polygon.cpp:302-377", "libs/MeshKernel/src/Polygon.cpp:447-624"]}
{"id": "C107", "title": "Snapping a polygon moves the chosen valid nodes and no other", "statement": "SnapToLandBoundary replaces exactly the valid nodes from the first to the second index (around the polygon when the second comes first) by their nearest points, leaves all others, refuses indices outside, and keeps a closed polygon closed.", "quantifier": "all polygons, index pairs and land boundaries", "why_tests_cant": "The loop goes around modulo the size and stops at the second index; that it visits every chosen node once and no other needs all sizes and pairs.", "anchors": ["libs/MeshKernel/src/Polygon.cpp:218-258"]}
{"id": "C108", "title": "The offset of a polygon moves every node along its two normals", "statement": "ComputeOffset moves every node by the displacement for the normals of the edges before and after it (those of the closing edges at both ends), outwards and, if asked for, after a missing point inwards; an exactly closed polygon gives closed offsets.", "quantifier": "all polygons, normals and displacements, in binary64", "why_tests_cant": "The normal before a node is carried through the loop and the first one is used again at the end; that both ends get the same offset needs all lengths.", "anchors": ["libs/MeshKernel/src/Polygon.cpp:865-932"]}
{"id": "C109", "title": "The offset of polygons is the polygons of the offsets", "statement": "Polygons::OffsetCopy of one polygon without holes is the polygons made of its offset; for several polygons and polygons with holes the offset of every ring is in the result, separated.", "quantifier": "all lists of enclosures", "why_tests_cant": "The places where rings and holes are written are counted separately from the size of the vector; whether they stay within needs all lists.", "anchors": ["libs/MeshKernel/src/Polygons.cpp:191-231"]}
{"id": "C110", "title": "The offset of an enclosure is the enclosure of the offsets", "statement": "PolygonalEnclosure::OffsetCopy makes the outward enclosure from the outward offsets of the outer ring and of every hole, separated, and if asked for the inward one from the inward offsets; nothing is written outside the vectors.", "quantifier": "all enclosures", "why_tests_cant": "The offsets are copied by counted positions out of vectors holding both directions; that every copy hits the right part needs all sizes and numbers of holes.", "anchors": ["libs/MeshKernel/src/PolygonalEnclosure.cpp:179-244"]}
{"id": "C111", "title": "Graded columns grow towards both ends alike", "statement": "The columns of a graded grid start at zero and add up elements: the given number in the middle (corrected to leave an even number) have the block size, those at either end grow towards the end by the same factors; without grading every column is a multiple of the block size.", "quantifier": "all numbers of columns, fractions, sizes and power functions, in binary64", "why_tests_cant": "The three cases of the element size and the corrected count come from integer divisions; that they are symmetric and cover all columns needs all parities and fractions.", "anchors": ["libs/MeshKernel/src/CurvilinearGrid/CurvilinearGridGenerateCircularGrid.cpp:14-68"]}
{"id": "C112", "title": "Graded rows add up the row sizes from the origin", "statement": "The rows of a graded grid add up the block size for the uniform rows and growing sizes after them, and the first lies on the origin; without grading every row is a multiple of the block size.", "quantifier": "all numbers of rows, fractions, sizes and power functions, in binary64", "why_tests_cant": "The start value and the first increment use different exponents; whether they cancel depends on the corrected count.", "anchors": ["libs/MeshKernel/src/CurvilinearGrid/CurvilinearGridGenerateCircularGrid.cpp:70-103"]}
{"id": "C113", "title": "The nodes of a circular grid lie on circles and rays", "statement": "Parameters outside their ranges are refused, others give a grid with one more row and column of nodes than asked for: on the circles of the radii and the rays at equal angles that together do not exceed a full circle, or for radius zero on the turned rows and columns; the radii start at the radius asked for and add up the row sizes.", "quantifier": "all parameters, projections and trigonometric functions, in binary64", "why_tests_cant": "The radii are computed in unsigned and the rows in signed arithmetic with different start values; what they agree on needs all counts.", "anchors": ["libs/MeshKernel/src/CurvilinearGrid/CurvilinearGridGenerateCircularGrid.cpp:8-12", "libs/MeshKernel/src/CurvilinearGrid/CurvilinearGridGenerateCircularGrid.cpp:105-234", "libs/MeshKernel/include/MeshKernel/Parameters.hpp:85-107"]}
{"id": "C114", "title": "Adding a face of the globe shares nodes and edges", "statement": "Adding a face to a mesh without two nodes at the same position and without two edges between the same nodes gives such a mesh again. Nothing is taken away, every point of the face has a node, consecutive points are joined by edges, and the only new nodes and edges are those of the face.", "quantifier": "for all meshes with that property, polygons of any number of points and position comparisons", "why_tests_cant": "Whether a node or an edge is already there depends on all faces added before.", "anchors": ["libs/MeshKernel/src/Mesh2DGenerateGlobal.cpp:33-86", "libs/MeshKernel/src/Mesh.cpp:468-496", "libs/MeshKernel/src/Mesh.cpp:637-651"]}
{"id": "C115", "title": "The mesh of the globe consists of bands from the equator to the poles", "statement": "Without columns, without rows or on a flat map the generation is refused. Otherwise the mesh, before nodes are merged, consists of the faces of bands on top of each other, mirrored in the equator: exactly those that end before the date line. There are as many bands as asked for, or fewer and then the last reaches the pole. A band is as high as the latitude step unless the pole is near, and its faces are twice as wide as those below exactly when these would be too low; only the first then has a node halfway its lower side. There are no double nodes or edges.", "quantifier": "for all numbers of columns and rows, latitude steps and position comparisons", "why_tests_cant": "The bands depend on each other through the latitude, the width and the flag for pentagons; tests look at a few sizes.", "anchors": ["libs/MeshKernel/src/Mesh2DGenerateGlobal.cpp:88-180"]}
{"id": "C116", "title": "The latitude step is found by Newton's method", "statement": "The step is an iterate of Newton's method for the height at which a face is as high as it is wide halfway, from the width at the lower side: the one after the first adjustment below the tolerance, or else the fifth.", "quantifier": "for all latitudes, widths, tolerances and functions for the cosine and square root", "why_tests_cant": "The number of iterations depends on the rounding of every step.", "anchors": ["libs/MeshKernel/src/Mesh2DGenerateGlobal.cpp:9-31"]}
{"id": "C117", "title": "Only superfluous edges of the globe are deleted", "statement": "On an administrated mesh, exactly the edges between two nodes at the same latitude that both have five or six edges are deleted, whatever the order of the edges; numbers of edges are those before the deletion.", "quantifier": "for all meshes with edges between existing nodes, already deleted edges included", "why_tests_cant": "The counts are not updated during the loop, so the outcome could depend on the order.", "anchors": ["libs/MeshKernel/src/Mesh2DGenerateGlobal.cpp:189-209", "libs/MeshKernel/src/Mesh.cpp:520-531", "libs/MeshKernel/src/Mesh.cpp:1216-1220"]}
