{"id": "C01", "title": "Id map is a partial map under any history", "statement": "After any sequence of insert, insert_with_key, remove, extend, retain and clear, looking up a key gives exactly the value last stored under that key and not removed since, and nothing for every other key; insert_with_key and remove return exactly the value that was there before.", "quantifier": "every finite sequence of operations on an initially empty id map, every key and value", "why_tests_cant": "the recycling behaviour depends on the whole history of frees and explicit-key inserts; a test covers one history", "anchors": ["src/id_map.rs: IdMap::get, insert, insert_with_key, remove, retain, clear, extend"]}
{"id": "C02", "title": "Id map insert returns a fresh id", "statement": "insert never returns the id of a value that is still stored and never overwrites one; it reuses a freed id whenever one exists and otherwise returns the next unused index; two values inserted and both still stored never share an id.", "quantifier": "every history of id map operations, every value", "why_tests_cant": "freshness after arbitrary interleavings of explicit keys and removals is a history property", "anchors": ["src/id_map.rs: IdMap::insert, ExtendValues::next"]}
{"id": "C03", "title": "Id map length is the number of stored values", "statement": "len equals the number of distinct keys that currently hold a value, the debug assertion inside len never fires, and after any history no operation panics.", "quantifier": "every history of id map operations", "why_tests_cant": "the debug assertion relates two counters that are updated in six places", "anchors": ["src/id_map.rs: IdMap::len, insert_with_key (unwrap)"]}
{"id": "C04", "title": "Id map iteration", "statement": "iter, keys and values visit every stored entry exactly once, in strictly increasing key order, and visit nothing else.", "quantifier": "every reachable id map", "why_tests_cant": "must hold for every hole pattern left by deletions", "anchors": ["src/id_map.rs: IdMap::iter, keys, values"]}
{"id": "C05", "title": "Id map bulk operations", "statement": "retain keeps exactly the entries whose predicate is true (calling it once per entry in increasing key order), extend_values gives the values distinct fresh ids in order, collecting n values gives keys 0..n in order, collecting pairs gives the last value of each key.", "quantifier": "every reachable id map, every predicate, every list of values or pairs", "why_tests_cant": "unbounded input lists and arbitrary predicates", "anchors": ["src/id_map.rs: IdMap::retain, extend_values, FromIterator, Extend"]}
{"id": "C06", "title": "Ids never collide with the reserved id", "statement": "As long as fewer than 2^32-1 slots have ever been in use, no id handed out by insert equals the reserved invalid id (the ghost vertex); at 2^32-1 slots the next id is the reserved one.", "quantifier": "every history of id map operations", "why_tests_cant": "needs four billion insertions to observe", "anchors": ["src/id_map.rs: IdMap::insert", "src/lib.rs: id!"]}
{"id": "C07", "title": "The twelve walker positions are the twelve even orders of a tet's vertices", "statement": "The vertex order reported by a walker is, for its twelve edge positions, exactly the twelve even permutations of the tet's stored vertex order, each once; first/second/third/fourth, edge, opp_edge, tri, opp_tri and tet agree with each other.", "quantifier": "every tet, every walker position", "why_tests_cant": "parity and bijectivity over all tets with arbitrary vertex ids", "anchors": ["src/tet.rs: TetWalker::first, second, third, fourth, edge, opp_edge, tri, opp_tri, tet"]}
{"id": "C08", "title": "Walker moves permute the vertices as documented", "statement": "to_next_tri_edge, to_prev_tri_edge, to_next_vertex_edge, to_prev_vertex_edge, to_twin_edge, to_opp_edge and to_perm(p) reorder the reported vertices by the documented permutation and nothing else; hence they obey the group laws (involutions, three-cycles, inverse pairs), and every move keeps the edge index in 0..12.", "quantifier": "every walker, every permutation, every sequence of moves", "why_tests_cant": "sequences of moves are unbounded", "anchors": ["src/tet.rs: TetWalker::to_next_tri_edge .. to_perm, permutation_arr"]}
{"id": "C09", "title": "Undirected edge slots", "statement": "The undirected edge id a walker reports depends only on the unordered pair of its first two vertices; the six slots of a tet correspond to its six vertex pairs, and undir_edges of a walker lists them in that walker's own vertex order.", "quantifier": "every tet, every walker position", "why_tests_cant": "table driven over all positions; used by every flip", "anchors": ["src/tet.rs: TetWalker::undir_edge_index, undir_edge, to_undir_edge, undir_edges"]}
{"id": "C10", "title": "Vertex sorting is canonical", "statement": "sorted_2 and sorted_3 return the increasing rearrangement of their input; even_sorted_3 and even_sorted_4 return an even rearrangement of the input, and two inputs without repeated vertices that are even rearrangements of each other give the same result.", "quantifier": "all arrays of vertex ids, including ties for the sorts", "why_tests_cant": "all 2^96 inputs", "anchors": ["src/tet.rs: sorted_2, sorted_3, even_sorted_3, even_sorted_4"]}
{"id": "C11", "title": "Triangle keys identify oriented triangles", "statement": "Two triangles with distinct vertices get the same lookup key exactly when one is a rotation of the other; a triangle and its mirror image get different keys.", "quantifier": "all triples of distinct vertex ids", "why_tests_cant": "injectivity over an infinite domain", "anchors": ["src/tet.rs: TriVertices::new"]}
{"id": "C12", "title": "A new mesh is well formed and positively oriented", "statement": "TetMesh::new on any four points yields 4 vertices, 5 tets (one solid, four ghost) and a mesh satisfying every check of assert_integrity; the solid tet consists of the four given vertices, is positively oriented whenever the points are affinely independent, and every vertex keeps its position and value.", "quantifier": "every four points, every tolerance, both orientations of the input", "why_tests_cant": "all point configurations", "anchors": ["src/tet.rs: TetMesh::new, with_ids, assert_integrity"]}
{"id": "C13", "title": "Adjacency is symmetric in every reachable mesh", "statement": "In every reachable mesh, crossing a triangle (to_adj) from a walker on (a,b,c | d) leads to a live tet on (b,a,c | x) and crossing back leads to the very same walker; no tet is adjacent to itself; no stored walker has a dead tet or an edge index outside 0..12.", "quantifier": "every mesh reachable from new by any sequence of admissible flips, every walker on it", "why_tests_cant": "an invariant over unbounded histories; a single wrong link in one of the 12 x 12 position combinations breaks it", "anchors": ["src/tet.rs: TetWalker::to_twin_tri, flip14_unchecked, flip23_unchecked, flip32_unchecked"]}
{"id": "C14", "title": "1-to-4 flip", "statement": "On a well formed mesh, flip14_unchecked with a vertex not used by any tet does not panic, replaces the walker's tet by the four tets obtained by substituting the new vertex for each of its vertices in turn, and leaves the adjacency, edge and lock structure well formed; each returned walker's fourth vertex is the new vertex and its triangle is one of the four old triangles.", "quantifier": "every well formed mesh of any size, every walker on it, every unused vertex", "why_tests_cant": "all meshes, all 12 walker positions, aliasing between neighbours", "anchors": ["src/tet.rs: TetWalker::flip14_unchecked"]}
{"id": "C15", "title": "2-to-3 flip", "statement": "On a well formed mesh, flip23_unchecked on a triangle (a,b,c) with opposite vertices d and e that are not yet joined does not panic, replaces the two tets by the three tets around the new edge d-e, keeps everything well formed, and returns three walkers whose opposite edge is d-e, the first of them on the walker's own edge.", "quantifier": "every well formed mesh, every walker, every arrangement of neighbours (including a neighbour shared by several outer triangles)", "why_tests_cant": "144 position combinations times arbitrary neighbour aliasing", "anchors": ["src/tet.rs: TetWalker::flip23_unchecked"]}
{"id": "C16", "title": "3-to-2 flip", "statement": "On a well formed mesh, flip32_unchecked on an edge surrounded by exactly three tets whose link triangle is not yet present does not panic, replaces the three tets by the two tets on the link triangle, removes exactly that edge, keeps everything well formed, and returns two walkers whose opposite triangles are the new triangle seen from both sides.", "quantifier": "every well formed mesh, every walker, every arrangement of neighbours", "why_tests_cant": "1728 position combinations times arbitrary neighbour aliasing", "anchors": ["src/tet.rs: TetWalker::flip32_unchecked"]}
{"id": "C17", "title": "4-to-4 flip", "statement": "On a well formed mesh, flip44_unchecked on an edge surrounded by exactly four tets replaces it by the other diagonal in the plane of the walker's triangle, keeps the number of tets and everything well formed, and returns the four walkers around the new edge.", "quantifier": "every well formed mesh, every walker on an edge with a four tet ring", "why_tests_cant": "composition of two flips over all position combinations", "anchors": ["src/tet.rs: TetWalker::flip44_unchecked"]}
{"id": "C18", "title": "Well-formedness survives any history of flips", "statement": "Starting from new (with or without triangle tracking) any sequence of vertex insertions by 1-to-4 flips and of admissible 2-to-3, 3-to-2 and 4-to-4 flips never panics and ends in a mesh passing assert_integrity.", "quantifier": "every sequence of admissible operations", "why_tests_cant": "unbounded histories with id recycling", "anchors": ["src/tet.rs: TetWalker::flip*_unchecked, TetMesh::assert_integrity"]}
{"id": "C19", "title": "Flips touch nothing but the tets they replace", "statement": "A flip leaves the vertices, values, edges and locks of every tet outside the flipped region unchanged, leaves vertex positions and values unchanged, and changes the number of tets by exactly +3, +1, -1 or 0.", "quantifier": "every well formed mesh, every flip", "why_tests_cant": "frame property over all other elements of a mesh of any size", "anchors": ["src/tet.rs: TetWalker::flip14_unchecked, flip23_unchecked, flip32_unchecked, flip44_unchecked, TetMesh::num_tets"]}
{"id": "C20", "title": "Locked triangles and edges are never flipped away", "statement": "flip23_unlocked does nothing (returns None and leaves the mesh unchanged) on a locked triangle; flip32_unlocked does nothing when the edge or one of its triangles is locked or the ring is not of length three; when these functions or their quality variants do flip, every locked triangle and edge of the mesh is still present and still locked on both sides, and nothing else becomes locked.", "quantifier": "every well formed mesh, every walker, every lock pattern", "why_tests_cant": "all lock patterns on all meshes", "anchors": ["src/tet.rs: TetWalker::flip23_unlocked, flip32_unlocked, flip23_quality, flip32_quality, TetFlags, UndirEdgeFlags"]}
{"id": "C21", "title": "The triangle map stays exact", "statement": "While tracking is on, after any admissible flip walker_from_tri finds a walker for a triangle exactly when some live tet has that oriented triangle, and the walker it returns is on it; switching tracking on rebuilds the map exactly.", "quantifier": "every well formed mesh, every flip, every triangle", "why_tests_cant": "an exact set equality maintained incrementally over unbounded histories", "anchors": ["src/tet.rs: TetMesh::set_track_tri_map, walker_from_tri, tri_map"]}
{"id": "C22", "title": "Every vertex knows a tet it belongs to", "statement": "walker_from_vertex(v) is a live walker whose first vertex is v for every vertex of every tet, after any history of flips.", "quantifier": "every reachable mesh, every vertex", "why_tests_cant": "each flip must repair the reference of each vertex that might dangle; depends on the walker position passed by the caller", "anchors": ["src/tet.rs: TetMesh::walker_from_vertex, flip14_unchecked (vertices[vertex].tet = self)"]}
{"id": "C23", "title": "Edge rings", "statement": "edge_ring terminates, starts with the walker itself, and yields pairwise different walkers, all on the same directed edge, in an order where each shares a triangle with the next and the last with the first; it yields every tet reachable around that edge.", "quantifier": "every well formed mesh, every walker", "why_tests_cant": "termination of an unbounded circular walk needs injectivity of the step on all meshes", "anchors": ["src/tet.rs: TetWalker::edge_ring", "src/util.rs: CircularListIter"]}
{"id": "C24", "title": "Walkers around a vertex", "statement": "walkers_from_vertex (both variants) terminates and yields exactly one walker per tet of the vertex's connected star, each with that vertex first; vertex_tets yields the corresponding tets.", "quantifier": "every well formed mesh, every vertex", "why_tests_cant": "graph search over meshes of any size and shape", "anchors": ["src/tet.rs: WalkersFromVertex, WalkersFromVertexOpt, TetMesh::walkers_from_vertex, vertex_tets"]}
{"id": "C25", "title": "Traversals leave no marks", "statement": "The flag based traversals restore every tet and vertex flag they set, so the mesh after a traversal equals the mesh before it and traversals can be repeated or stopped early.", "quantifier": "every well formed mesh, every vertex, every number of consumed items", "why_tests_cant": "every early-exit point", "anchors": ["src/tet.rs: WalkersFromVertexOpt (Drop), VertexTargetWalkersOpt (Drop)"]}
{"id": "C26", "title": "Neighbours of a vertex", "statement": "vertex_targets yields every vertex sharing an edge with the given vertex inside its connected star exactly once and never yields the vertex itself.", "quantifier": "every well formed mesh, every vertex", "why_tests_cant": "combination of two searches on arbitrary meshes", "anchors": ["src/tet.rs: VertexTargetWalkers, VertexTargetWalkersOpt, TetMesh::vertex_targets"]}
{"id": "C27", "title": "Looking up edges and tets", "statement": "walker_from_edge([a,b]) returns a walker whose current edge is (a,b) if some tet in the star of a contains both and None otherwise; walker_from_tet behaves likewise for four vertices up to even order; adjacent_tets are the four tets across the triangles.", "quantifier": "every well formed mesh, all vertex ids", "why_tests_cant": "negative answers quantify over the whole mesh", "anchors": ["src/tet.rs: TetMesh::walker_from_edge, walker_from_tet, walker_from_tri, adjacent_tets"]}
{"id": "C28", "title": "Orientation predicate is consistent", "statement": "orient_3d changes sign under every odd exchange of its vertices and not under even ones, is zero on a repeated vertex, is invariant under translation, and agrees in sign with tet_volume_x6; with exactly one ghost vertex it equals minus the test against the centre point, so ghost tets are oriented consistently too.", "quantifier": "all integer-coordinate points and all vertex ids including the ghost", "why_tests_cant": "algebraic identities over all coordinates", "anchors": ["src/tet/geo.rs: orient_3d, idx_ori", "src/tet.rs: TetMesh::tet_volume_x6"]}
{"id": "C29", "title": "In-sphere predicate is consistent", "statement": "in_sphere is symmetric under even reorderings of the tet, antisymmetric under odd ones, and positive for a positively oriented tet exactly when the point is strictly inside the circumsphere; with a ghost vertex in any slot it is the same test, namely whether the point lies strictly beyond the solid triangle.", "quantifier": "all integer-coordinate points, all four ghost positions", "why_tests_cant": "algebraic identities over all coordinates", "anchors": ["src/tet/geo.rs: in_sphere"]}
{"id": "C30", "title": "Quality does not depend on vertex order", "statement": "quality returns bit-identical results for any two even reorderings of the same tet; it is -1 for tets of non-positive volume and infinite for positively oriented ghost tets.", "quantifier": "all tets of distinct vertices, all even reorderings, any arithmetic (including rounding)", "why_tests_cant": "floating-point evaluation order must not matter; tests compare one order", "anchors": ["src/tet/geo.rs: quality", "src/tet.rs: even_sorted_4"]}
{"id": "C31", "title": "Flips conserve volume", "statement": "Flips and vertex insertions conserve signed volume: no operation changes the difference between the total signed volume of the solid tets and the signed volume enclosed by the outer triangles, and operations that leave the ghost tets alone do not change the solid volume. So in every reachable mesh the solid tets' volumes add up to exactly the volume enclosed by the hull.", "quantifier": "all integer coordinates, every flip, every history", "why_tests_cant": "algebraic identity over all coordinates", "anchors": ["src/tet.rs: flip14_unchecked, flip23_unchecked, flip32_unchecked, tet_volume_x6"]}
{"id": "C32", "title": "Segment-triangle and point-tet tests", "statement": "tri_intersects_edge holds exactly when some point is strictly inside both the triangle and the segment and the segment is not in the triangle's plane; a ghost end point turns the segment into the ray that leaves the solid end away from the mesh centre; the direction of the segment does not matter. tet_intersects_vertex holds for every point strictly inside the tet and for no point outside the closed tet, whatever the tie-breaking of the simulated-perturbation test does on the boundary.", "quantifier": "all integer coordinates, every tie-breaking rule that agrees with the exact sign when it is not zero", "why_tests_cant": "all configurations, including degenerate ones", "anchors": ["src/tet/geo.rs: tri_intersects_edge, tet_intersects_vertex"]}
{"id": "C33", "title": "Quality improvement never hurts and stops", "statement": "Each flip made by flip23_quality, flip32_quality or flip_quality strictly increases the minimum quality over the replaced tets; a rejected flip leaves the mesh unchanged; no infinite sequence of such flips exists.", "quantifier": "every mesh, every walker, every quality function", "why_tests_cant": "termination is about infinite runs", "anchors": ["src/tet.rs: flip23_quality, flip32_quality, flip_quality"]}
{"id": "C34", "title": "Removing edges and triangles by flips", "statement": "In a well formed mesh that tracks its triangles and has no doubled tets, progress_by_removing_edge and progress_by_removing_tri end without a panic for every depth, give back the goal and bad-edge stacks as they found them, change the mesh only by flips whose orientation tests succeed and whose new edges and triangles the caller's predicates approve, keep locked elements, vertices and well-formedness, add no triangle at a bad edge, and report rightly: nothing, with every goal still in the mesh, or the index of the first goal that is gone. The one exception is a wanted flip whose new edge or triangle the mesh already has, or for which no id is left.", "quantifier": "every such mesh, walker, depth, stack of present goals, caller predicates and orientation test", "why_tests_cant": "mutually recursive search of unbounded depth", "anchors": ["src/tet.rs: TetWalker::progress_by_removing_edge, progress_by_removing_tri"]}
{"id": "C35", "title": "Cavity search", "statement": "The cavity search terminates and leaves the mesh exactly as it was (every flag it set is cleared). It returns each enclosed tet once, and a boundary that is exactly the set of triangles between an enclosed and a non-enclosed tet, each once. In convex mode the enclosed tets are the starting ones and all those reached from them through tets in conflict with the vertex. Otherwise they are the largest part, of the region found by extending, that is star-shaped with respect to the vertex and has no excluded tet on its boundary; the search panics only if that part is empty, keeps the starting tets if they are star-shaped, and never swallows a locked edge or a locked triangle with locked edges that was not already inside the starting region.", "quantifier": "every well formed mesh, every starting region and boundary, every set of excluded tets, every sphere and orientation test", "why_tests_cant": "graph search over meshes of any size with arbitrary predicates", "anchors": ["src/tet.rs: TetWalker::point_cavity"]}
{"id": "C36", "title": "Filling a cavity with a vertex", "statement": "flip_in_vertex_unchecked, given an unattached vertex and a region of tets with its complete boundary, replaces the region by one tet per boundary triangle, spanned by that triangle and the vertex, with the value of the tet it was on. All other tets keep their vertices, locks, values and edges; the edges inside the region disappear and one unlocked edge per boundary vertex appears; locked triangles on the boundary stay locked; ids of the region are reused; the working flags are all cleared; and the mesh stays well formed, also when such calls are mixed with the other operations.", "quantifier": "every well formed mesh, every region whose boundary is a connected surface, every vertex not yet in a tet, every history mixing these calls with the other operations", "why_tests_cant": "arbitrary cavity shapes", "anchors": ["src/tet.rs: TetMesh::flip_in_vertex_unchecked"]}
{"id": "C37", "title": "Circular list iteration", "statement": "Iterating a circular list from a start element yields the start first, follows next, yields no element twice and stops exactly when it would return to the start; for every injective next function on a finite set it terminates.", "quantifier": "every next function, every start, every cycle length", "why_tests_cant": "termination and completeness for all cycle lengths", "anchors": ["src/util.rs: CircularListIter"]}
{"id": "C38", "title": "Hilbert sorting only reorders", "statement": "hilbert_sort returns a permutation of its input in which every vertex keeps the id equal to its input position, so no vertex is lost, duplicated or renamed, whatever the curve index function does.", "quantifier": "every list of points and values, every curve index function", "why_tests_cant": "all input lists", "anchors": ["src/util.rs: hilbert_sort"]}
{"id": "C39", "title": "PLC linked structure is always well formed", "statement": "After any sequence of add_vertex, add_edge, add_edge_if_absent and add_face calls with existing vertices and non-empty rings (at most 2^32-1 elements), no call fails, every outgoing and incoming edge list, every list of face uses of an edge and every list of rings of a face is a consistent circular doubly linked list containing exactly the elements it should, the counts are right, and no lookup made while iterating fails; from_obj makes exactly the calls the file describes. (add_face without rings or with an empty ring panics.)", "quantifier": "every sequence of construction calls", "why_tests_cant": "pointer-structure invariant over unbounded histories", "anchors": ["src/plc.rs: Plc::add_vertex, add_new_edge, add_edge, add_edge_if_absent, add_face"]}
{"id": "C40", "title": "PLC faces return the rings they were built from", "statement": "The rings of a face, iterated through the public iterators, are exactly the vertex rings passed to add_face, in the same order, its edges are exactly the edges between consecutive ring vertices, its value and plane are those computed when it was added, and all this stays so whatever is added later.", "quantifier": "every face, every later history", "why_tests_cant": "all ring shapes and all later histories", "anchors": ["src/plc.rs: Plc::add_face, Face::vertices, FaceRingVertices"]}
{"id": "C41", "title": "PLC edges are unique and keep the right value", "statement": "There is at most one edge per ordered vertex pair; edge_id finds it exactly when it was added; add_edge replaces the value and returns the same id, add_edge_if_absent keeps the old value; edges created by add_face get the default value only when absent.", "quantifier": "every sequence of construction calls, every vertex pair", "why_tests_cant": "map exactness over unbounded histories", "anchors": ["src/plc.rs: Plc::edge_id, add_edge, add_edge_if_absent, add_face"]}
{"id": "C42", "title": "PLC validation verdict", "statement": "validate returns the degenerate faces (no ring with three vertices) if there are any; otherwise the faces with vertices at half the tolerance or more from their plane, with exactly those vertices; otherwise exactly the pairs of elements found too close, each once; and Ok exactly when there is nothing of the kind. A pair sharing a vertex is never reported and no pair is reported in both orders. The bounding boxes never hide a pair of elements that come within twice the tolerance of each other in each coordinate.", "quantifier": "every PLC built by the API, every tolerance, all geometric tests, every bounding volume tree", "why_tests_cant": "all PLCs and all geometric oracles", "anchors": ["src/plc.rs: Plc::validate, ValidateReason", "src/plc/intersect.rs: IntersectionTest::visit, vertex_bound, edge_bound, face_bound"]}
{"id": "C43", "title": "Volume and centroid exist exactly for solid tets", "statement": "tet_volume_x6 and tet_centroid return None exactly for tets containing the ghost vertex, and tet_volume_x6 changes sign with orientation.", "quantifier": "every mesh, every live tet", "why_tests_cant": "all meshes", "anchors": ["src/tet.rs: TetMesh::tet_volume_x6, tet_centroid"]}
{"id": "C44", "title": "Quality improvement keeps the meshed region when its boundary is locked", "statement": "If every triangle between the solid and the outside part of the mesh is locked and outside (ghost) tets have the infinite quality that positively oriented ghost tets get, then any sequence of quality-improving flips leaves all ghost tets in place and the total solid volume unchanged. (Without the locks this fails: flip_quality can remove solid volume at the hull.)", "quantifier": "every consistent mesh with locked hull, every sequence of quality flips, every quality arithmetic in which nothing exceeds infinity", "why_tests_cant": "all meshes and flip sequences", "anchors": ["src/tet.rs: flip23_quality, flip32_quality, flip_quality", "src/tet/geo.rs: quality"]}
{"id": "C45", "title": "Recovering an edge succeeds exactly when nothing listed is in its way any longer", "statement": "For an edge between two solid vertices of a consistent mesh that tracks its triangles, recover_and_lock_edge changes the mesh only by flips that the crossing tests allow. If it returns true, the edge is in the mesh and locked, no element that was listed as crossing it is left (other than elements the tests would let it make again), and nothing but that lock was changed by the last step. If it returns false, one of the listed elements is still in the mesh. The only other ends are a flip that would make an existing element a second time, and a panic when the way is clear but the edge is not there. Whatever was locked before stays in the mesh and locked, and no vertex is moved or cut off.", "quantifier": "every consistent tracked mesh, every edge, every search depth, every crossing test and orientation test, every list of crossing elements of the mesh", "why_tests_cant": "all meshes, all depths and all outcomes of the geometric tests", "anchors": ["src/tet.rs: recover_and_lock_edge"]}
{"id": "C46", "title": "Recovering a triangle locks it on both sides together with its edges", "statement": "If recover_and_lock_tri returns true, the triangle is in the mesh and locked on both sides and its three edges are locked; if it returns false, an element listed as crossing one of its edges is still in the mesh, or its edges are locked and a listed edge crossing the triangle is still in the mesh. The mesh is changed only by allowed flips and by setting locks; what was locked stays in the mesh and locked. A triangle that is there and has nothing listed against its edges is locked without a flip. (It needs a mesh that tracks its triangles: on the same mesh without tracking it can panic.)", "quantifier": "every consistent tracked mesh, every triangle of solid vertices, every geometry that lists elements of the mesh", "why_tests_cant": "all meshes, and all interleavings of flips and locks over the growing depths", "anchors": ["src/tet.rs: recover_and_lock_tri, recover_and_lock_edge"]}
{"id": "C47", "title": "Recovering the edges or the boundary of a PLC locks everything that it does not count as missing", "statement": "After recover_and_lock_edges every edge of the PLC is in the mesh and locked or is counted as missing; after recover_and_lock_boundary every triangle of the PLC is in the mesh and locked on both sides or is counted as missing, and the edges of a triangle that had to be recovered are locked too. A missing element is one that was not in the mesh at the start, and when it was given up a listed element was still in its way. Later recoveries never undo earlier ones.", "quantifier": "every consistent mesh, every list of edges or triangles, every order in which the hash set yields the edges, every geometry that lists elements of the mesh", "why_tests_cant": "all meshes and PLCs; later recoveries could undo earlier ones, and hash order varies", "anchors": ["src/tet.rs: recover_and_lock_edges, recover_and_lock_boundary, set_track_tri_map"]}
{"id": "C48", "title": "Inserting a vertex into a Delaunay tetrahedralization finds its cavity, fills it and is Delaunay across the cavity boundary", "statement": "add_vertex_delaunay stores the vertex (under a new id, or under the id given to the internal variant) and always finishes. If it panics for lack of a place to start, no tet at the vertex the walk ended at, nor any tet next to one of these, has the new vertex strictly inside its circumsphere. Otherwise exactly the tets that can be reached from such a tet through tets in conflict with the vertex are replaced by tets joining the vertex to the boundary of what was removed; all other tets stay. The new vertex then is part of the mesh, the mesh is well formed with no marks left, and for every new tet the vertex across the cavity boundary is outside its circumsphere.", "quantifier": "every well-formed mesh, every point, every starting vertex, every way of rounding distances that keeps them ordered, every hash order; filling for every cavity whose boundary is a connected surface", "why_tests_cant": "all meshes and points, including those where the walk gets stuck; rounding and hash order vary", "anchors": ["src/tet.rs: TetMesh::add_vertex_delaunay, add_vertex_delaunay_internal, vertex_distance2", "src/tet/geo.rs: in_sphere"]}
{"id": "C49", "title": "assert_integrity accepts exactly the meshes whose references agree", "statement": "assert_integrity succeeds if and only if: each vertex refers to a walker that starts at it; edges have sorted ends, no two have the same ends and each is used by a tet; each tet has four distinct vertices and, if orientations are checked, passes the orientation test; crossing a triangle leads to the same triangle from the other side, and back; a triangle is locked on both sides or neither; the edge stored for each pair of vertices of a tet has these ends; and a tracked triangle map lists every triangle and only right walkers. In a mesh that passes, every vertex is part of some tet, and every tet has positive volume if orientations were checked exactly. A mesh that passes may still contain two tets on the same side of a triangle.", "quantifier": "every mesh whose id maps are consistent, however it was made, with and without the orientation test", "why_tests_cant": "all meshes, in particular broken ones: each kind of damage must be noticed wherever it is", "anchors": ["src/tet.rs: TetMesh::assert_integrity"]}
{"id": "C50", "title": "Building a Delaunay tetrahedralization from points keeps every point, under its index, in a mesh of positively oriented tets", "statement": "If delaunay_from_vertices returns, there were at least four points; the vertex with id i has the position and the value of the ith point although the points are sorted and swapped on the way, and there are no other vertices; every point is part of some tet; every tet has positive volume; and the references of the mesh agree. The mesh it starts from consists of four of the points that pass the test against collinearity and coplanarity. If the cavities met on the way have connected surfaces as boundaries, the mesh is well formed with no marks left.", "quantifier": "every list of points, every way of rounding coordinates, tolerances, distances and the centre, every space-filling order, every hash order", "why_tests_cant": "all point lists and orders: an id could be lost in sorting, swapping and pre-adding only for some of them", "anchors": ["src/tet.rs: TetMesh::delaunay_from_vertices, TetMesh::with_ids"]}
{"id": "C51", "title": "The edges listed as crossing a triangle are in the mesh, cross it, and form a complete connected set", "statement": "tri_intersections_raw and tris_intersections_raw, from an edge of the triangle that is in the mesh, always finish. They list no edge twice, and only edges of the mesh that cross. If nothing is listed, none of the edges opposite to the given one in the tets around it crosses. Otherwise one of these is listed first, and exactly the edges are listed that can be reached from it by going from one edge that crosses to another one in the same triangle. With exact coordinates an edge is listed only if tri_intersects_edge says so, and the point computed from the coordinates is at once on the triangle and on the edge. If the edge to start from is not in the mesh they panic.", "quantifier": "every well-formed mesh, every triangle and starting edge, every way of rounding the coordinates that treats both directions of an edge alike", "why_tests_cant": "all meshes: the search must not loop, skip or repeat edges whatever the mesh around the triangle looks like", "anchors": ["src/tet/geo.rs: tri_intersections_raw, tris_intersections_raw, tri_intersections, tris_intersections"]}
{"id": "C52", "title": "The triangles and edges listed between two vertices form a way from one to the other", "statement": "edge_intersections_raw from a vertex of the mesh does not panic. What it lists is a way: the first thing lies opposite to the start, each further one lies around the tet or the edge reached, an edge is taken only where no triangle can be, and everything listed is in the mesh, is crossed by the segment and does not have the goal as a corner. It stops when the goal is a corner of what may come next, or when nothing is crossed. For neighbours nothing is listed (unless an opposite triangle is crossed with negative coordinates). With exact tests in a mesh of positively oriented tets, triangles are listed in the order in which they come on the segment, none twice; in general position the search ends, and if it lists anything the last triangle is in a tet with the goal.", "quantifier": "every well-formed mesh, every start and goal, every way of rounding that does not depend on how a triangle or edge is written; for order and termination every positively oriented mesh with exact tests", "why_tests_cant": "all meshes: the walk must neither leave the segment, nor go back, nor run for ever, whatever tets lie on the way", "anchors": ["src/tet/geo.rs: edge_intersections_raw, edge_intersections"]}
{"id": "C53", "title": "edge_intersects_edge is true exactly for segments that cross properly", "statement": "For four vertices other than the ghost vertex, edge_intersects_edge is true just if the segments are not parallel and have a common point strictly inside both. The coordinates of edge_edge_bary for coplanar segments describe the same point on both lines.", "quantifier": "all positions of the four vertices", "why_tests_cant": "a statement about all positions, including degenerate ones", "anchors": ["src/tet/geo.rs: edge_intersects_edge, edge_edge_bary, edge_intersections"]}
{"id": "C54", "title": "edge_mid_intersection returns a crossing and its point on the segment", "statement": "edge_intersections lists the crossings of the walk along the segment (C52), each with a point strictly between the ends and strictly inside the triangle or edge crossed. edge_mid_intersection returns nothing just if that list is empty, and otherwise the first entry whose two coordinates along the segment differ least. In general position it ends. It is not always the crossing closest to the midpoint, contrary to its documentation.", "quantifier": "all well formed meshes and segments; any tests for the choice, exact tests for the points", "why_tests_cant": "an optimum over a list that depends on the whole mesh, for all meshes; the wrong order shows only when the sums of the coordinates differ", "anchors": ["src/tet/geo.rs: edge_intersections, edge_mid_intersection"]}
{"id": "C55", "title": "time_until_not_star_shaped is the first time the moving point passes the surface of the ball", "statement": "For a vertex not on the hull and a point moving straight between two vertices, the function returns the smallest time after the start at which the point is in a triangle opposite to the vertex and passes through its plane, and nothing if there is none. At that time the ball is not star-shaped any more. It may have stopped being so before, contrary to the documentation.", "quantifier": "all well formed meshes, vertices and targets", "why_tests_cant": "a minimum over all tets around a vertex, for all positions including degenerate ones", "anchors": ["src/tet/geo.rs: time_until_not_star_shaped"]}
{"id": "C56", "title": "recover_edge_with_steiner_points turns the edge into a chain of locked edges", "statement": "If the call returns, the mesh is well formed, the returned vertices are new and have the value of the first end, and the first end, the returned vertices in order and the second end are joined by locked edges. No other edge is locked or unlocked, no locked edge and no locked triangle with locked edges is lost, and no vertex moves or is detached. If no point has to be rounded, the new vertices are on the segment, strictly between its ends and in order. If the ends are joined already, the edge is locked and nothing else changes. A step finds a cavity if the element crossed is not locked and its point does not have to be rounded.", "quantifier": "all meshes, ends, depths of recursion and, for the first claim, tests and roundings, provided each cavity met can be filled", "why_tests_cant": "a recursion of unbounded depth where each step changes the mesh the next one searches", "anchors": ["src/tet.rs: recover_edge_with_steiner_points, assert_edge_removable_by_edge_steiner, assert_tri_removable_by_edge_steiner"]}
{"id": "C57", "title": "recover_tri_with_steiner_points turns the triangle into locked pieces", "statement": "If the call returns, the mesh is well formed and the triangle is made of pieces: triangles of the mesh, locked on both sides and with locked edges, over the corners and the returned vertices. The sides of the triangle are chains of locked edges over the vertices returned for them. The returned vertices are new and have the values of corners. Nothing else becomes locked, no locked edge and no locked triangle with locked edges is lost, and no other vertex moves or is detached. If no piece is laid on the wrong side of the front, the sides of the pieces cancel out but for the way around the triangle. A vertex returned for the inside was put where an edge of the mesh meets the triangle.", "quantifier": "all meshes, triangles, numbers of rounds, planar triangulations that pick edges that are left, and, for all claims but the last, tests and roundings, provided each cavity met can be filled", "why_tests_cant": "a loop of unbounded length, steered by hash order and by a planar triangulation, where each round changes the mesh the next one searches", "anchors": ["src/tet.rs: recover_tri_with_steiner_points, assert_edge_removable_by_tri_steiner, assert_tri_removable_by_tri_steiner", "src/tet/geo.rs: tris_intersections"]}
{"id": "C58", "title": "The tests against the tolerance mean what they say about distances", "statement": "For four vertices that are not the ghost vertex, non_sliver is true exactly if the tet is positively oriented and in each of its seven pairs of opposite elements (a vertex and the plane of the triangle opposite, the lines of two opposite edges) every two points are at least the tolerance apart; with the ghost vertex it is the orientation. For a positively oriented tet, tet_close_to_vertex is true exactly if for each triangle the point is on the inner side or some point of its plane is closer than the tolerance; for a ghost tet this is asked of its one solid triangle. It is true whenever a point of the tet is closer than the tolerance, but not only then. sliver_kind names a closest of the seven pairs. tri_normal is orthogonal to the sides, gives the orientation of any fourth point, turns around when two vertices are exchanged and vanishes exactly for collinear vertices.", "quantifier": "all meshes, vertices, positions and tolerances, in exact arithmetic", "why_tests_cant": "statements about all points of planes and lines, for all positions", "anchors": ["src/tet/geo.rs: tri_normal, non_sliver, tet_close_to_vertex", "src/tet.rs: sliver_kind, vertex_position, vertex_distance"]}
{"id": "C59", "title": "export_debug_obj lists every triangle of every solid tet, facing outward", "statement": "The export of a well formed mesh does not panic. It contains, tet by tet in the order of the ids, the four triangles of each tet that does not have the ghost vertex, each with its three corners at the (rounded) positions of their vertices and in the order the walkers give them, and nothing else. There are four positions per solid tet and every polygon refers to positions that exist. In a positively oriented tet the triangles face outward.", "quantifier": "all well formed meshes and all roundings to single precision", "why_tests_cant": "the polygons are index arithmetic over all tets of any mesh, interleaved with ghost tets that are skipped", "anchors": ["src/tet.rs: export_debug_obj"]}
{"id": "C60", "title": "The first four points are apart by the tolerance", "statement": "When delaunay_from_vertices gets past choosing its first tet, the triangle of the first three points has each corner at least the tolerance away from the line of the opposite side, and in the tet of the first four points all opposite elements are at least the tolerance apart. The third point makes a triangle with the first two that is at least as wide as with any other point, and there is none exactly if no point makes one wide enough. The fourth is the first in the order that does, and there is none exactly if no point does. It is not true that points among which four would do are accepted: the first two are never exchanged.", "quantifier": "all lists of points, orders of the points and positive tolerances, in exact arithmetic", "why_tests_cant": "a claim about all points of lines and planes for every input and every order the sorting gives", "anchors": ["src/tet.rs: delaunay_from_vertices"]}
{"id": "C61", "title": "insert_tet fills a hole and glues the new tet to its neighbours", "statement": "In a mesh with holes, where a triangle need not have a tet on both sides, inserting a tet with four of its vertices, none of whose oriented triangles is there already, does not panic and gives such a mesh again: it has the old tets with their vertices, edges, locks and values, and the new one, unlocked. Wherever two tets now meet at a triangle they are glued to each other with matching walkers, the triangle map has exactly one entry per oriented triangle, edges are shared with the old tets and made only where there was none, and each of the four vertices refers to the new tet. A consistent mesh is such a mesh, and so is what remains after a tet has been taken out.", "quantifier": "all such meshes, all quadruples of vertices and all maps from pairs of vertices to edges that list the edges between the vertices concerned", "why_tests_cant": "the neighbours across the four triangles can be absent or present in any combination and orientation (three rotations each), with any sharing of edges", "anchors": ["src/tet.rs: insert_tet, cap_transform, shell_transform"]}
{"id": "C62", "title": "cap_transform and shell_transform replace tets between two vertices by others and keep the mesh closed", "statement": "Given tets at the sides of a polygon between a top and a bottom vertex, and triangles that fill the polygon (so that the new tets have the surface of the old), both transforms do not panic. All other tets keep their ids, vertices, edges and values; the old tets are gone and the new ones are there; the result has a tet on both sides of each triangle, glued to each other; no edge is left unused, none is there twice, and the edge between top and bottom is removed exactly by the shell transform. The triangles and their sides are locked, the triangles and edges to the top are unlocked, no other lock of what is kept changes. Each vertex refers to a tet that has it. Triangles are locked from both sides or neither, if around the tets replaced only top triangles were locked; in general this is false.", "quantifier": "all consistent meshes that track their triangles, all polygons with any number of sides, all lists of triangles that fill them", "why_tests_cant": "polygons of any length with any triangulation; every step of the loops works in a mesh that is not consistent", "anchors": ["src/tet.rs: cap_transform, shell_transform, insert_tet"]}
{"id": "C63", "title": "move_steiner_points_inside_volume returns each given vertex with one new twin, parts the two, and moves nothing else", "statement": "If move_steiner_points_inside_volume returns, it has made one new vertex for each of the given ones, and it returns each given vertex followed by its twin, side by side of the triangle and then the inside. The twin has the value of the given vertex. Both lie where the given vertex was, shifted: towards the two sides of the triangle, and on a side of the triangle also along its plane, off the side. With exact arithmetic, given vertices in the plane of the triangle end up strictly above it and their twins strictly below. No other vertex changes its place or value and no other vertex is made. Whether it returns should not depend on how the triangulation in the plane numbers its edges; it does.", "quantifier": "all meshes with a consistent map of vertices, all triangles, all lists of given vertices, all answers of the triangulation in the plane", "why_tests_cant": "the vertices go through four loops of cavity searches, fillings and transforms on meshes of any size, and the triangulation may answer anything", "anchors": ["src/tet.rs: move_steiner_points_inside_volume"]}
