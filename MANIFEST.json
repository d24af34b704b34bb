{"claims": [
 {"property": "C01", "status": "proved", "theorems": ["C01_idmap_behaves_as_partial_map"], "note": ""},
 {"property": "C02", "status": "proved", "theorems": ["C02_insert_returns_fresh_id", "C02_high_water_mark", "C02_unbounded_freshness_refuted"], "note": "Ids are fresh for every history that uses fewer than 2^32 slots; the unbounded claim is refuted (the counter wraps)."},
 {"property": "C03", "status": "proved", "theorems": ["C03_len_counts_live_ids"], "note": ""},
 {"property": "C04", "status": "proved", "theorems": ["C04_iteration_exact_and_ascending"], "note": ""},
 {"property": "C05", "status": "proved", "theorems": ["C05_retain_exact", "C05_extend_values", "C05_collect_values", "C05_collect_pairs"], "note": ""},
 {"property": "C06", "status": "proved", "theorems": ["C06_insert_never_returns_reserved_id", "C06_reserved_id_at_the_limit"], "note": ""},
 {"property": "C07", "status": "proved", "theorems": ["C07_positions_are_even_orders", "C07_accessors_agree"], "note": ""},
 {"property": "C08", "status": "proved", "theorems": ["C08_moves_permute_vertices", "C08_moves_stay_and_obey_laws", "C08_inverse_table"], "note": ""},
 {"property": "C09", "status": "proved", "theorems": ["C09_edge_slot_is_unordered_pair", "C09_undir_edges_in_walker_order"], "note": ""},
 {"property": "C10", "status": "proved", "theorems": ["C10_sorted_2", "C10_sorted_3", "C10_even_sorted_3", "C10_even_sorted_4", "C10_even_sorted_3_with_repeats_refuted"], "note": "Canonicity of even_sorted_3/4 needs distinct vertices, as stated; a refuted example shows the need."},
 {"property": "C11", "status": "proved", "theorems": ["C11_tri_key_iff_rotation", "C11_tri_key_mirror_differs"], "note": ""},
 {"property": "C12", "status": "proved", "theorems": ["C12_new_mesh", "C12_new_mesh_is_positive"], "note": "For every orientation test and centroid function. Positivity assumes the simulation-of-simplicity test agrees with the exact sign on non-degenerate input; that crate is not modelled. Tolerance is stored only and plays no role."},
 {"property": "C13", "status": "proved", "theorems": ["C13_adjacency_is_symmetric", "C13_stored_walkers_are_live"], "note": ""},
 {"property": "C14", "status": "proved", "theorems": ["C14_flip14", "C14_flip14_from_any_walker_refuted"], "note": "Vertex references stay right when the walker starts at its tet's stored first vertex (walker_from_tet_id does, and every caller in the crate uses it); for other walkers the claim is refuted."},
 {"property": "C15", "status": "proved", "theorems": ["C15_flip23", "C15_flip23_on_joined_vertices_refuted"], "note": "Needs the two opposite vertices to be different and not joined; the claim without this is refuted."},
 {"property": "C16", "status": "proved", "theorems": ["C16_flip32", "C16_flip32_on_existing_triangle_refuted"], "note": "Needs the link triangle to be absent; the claim without this is refuted."},
 {"property": "C17", "status": "proved", "theorems": ["C17_flip44"], "note": "Needs a ring of exactly four and the other diagonal to be free."},
 {"property": "C18", "status": "proved", "theorems": ["C18_any_history", "C18_reachable_is_consistent"], "note": "All eleven operations of HistSpec.v in any order; assert_integrity for histories in which no vertex is left unused (it rejects unused vertices by design)."},
 {"property": "C19", "status": "proved", "theorems": ["C19_flip14_count", "C19_flip23_count", "C19_flip32_count", "C19_flip44_count", "C19_frame"], "note": "The frame is field by field in the record replaces (FlipSpec.v), restated by C19_frame; the four flip specifications contain it."},
 {"property": "C20", "status": "proved", "theorems": ["C20_flip23_unlocked", "C20_flip32_unlocked", "C20_flip23_quality", "C20_flip32_quality"], "note": "flip23_unlocked, flip32_unlocked and the quality variants (any arithmetic); that a flip keeps the mesh consistent needs the readiness conditions of C15/C16."},
 {"property": "C21", "status": "proved", "theorems": ["C21_triangle_map_is_exact", "C21_tracking_switch"], "note": "walker_from_tri with tracking on, in every consistent mesh; every reachable mesh is consistent by C18."},
 {"property": "C22", "status": "proved", "theorems": ["C22_vertex_walker"], "note": ""},
 {"property": "C23", "status": "proved", "theorems": ["C23_edge_ring"], "note": "Every consistent mesh; the ring is exactly the set of walkers on the directed edge, which mesh consistency makes one cycle."},
 {"property": "C24", "status": "proved", "theorems": ["C24_walkers_from_vertex", "C24_vertex_tets"], "note": "Vertices that are part of a tet and are not the ghost vertex; for others the call panics, as in the code."},
 {"property": "C25", "status": "proved", "theorems": ["C25_walkers_from_vertex_opt", "C25_vertex_target_walkers_opt"], "note": "Every reachable mesh (reachable meshes carry no marks), any number of consumed items, then drop."},
 {"property": "C26", "status": "proved", "theorems": ["C26_vertex_targets", "C26_vertex_target_walkers"], "note": "Vertices that are part of a tet and are not the ghost vertex; for others the call panics, as in the code."},
 {"property": "C27", "status": "proved", "theorems": ["C27_edge", "C27_triangle", "C27_tet", "C27_adjacent_tets"], "note": "Without a tracked triangle map the first vertex must be part of a tet and not the ghost vertex; otherwise the code panics."},
 {"property": "C28", "status": "proved", "theorems": ["C28_exchanging_two_vertices_negates", "C28_even_reorderings_agree", "C28_repeated_vertex", "C28_translation", "C28_agrees_with_volume", "C28_ghost", "C28_ghost_neighbour_is_positive"], "note": ""},
 {"property": "C29", "status": "proved", "theorems": ["C29_exchanging_two_vertices_negates", "C29_walker_positions_agree", "C29_circumsphere", "C29_ghost"], "note": ""},
 {"property": "C30", "status": "proved", "theorems": ["C30_order_is_irrelevant", "C30_nonpositive_volume", "C30_ghost_tets"], "note": "Over an arbitrary arithmetic record (no property of rounding assumed for the order theorem)."},
 {"property": "C31", "status": "proved", "theorems": ["C31_operations_conserve_volume", "C31_reachable_meshes_fill_their_hull"], "note": ""},
 {"property": "C32", "status": "proved", "theorems": ["C32_triangle_meets_segment", "C32_triangle_meets_ghost_edge", "C32_segment_direction_is_irrelevant", "C32_triangle_meets_segment_sim", "C32_point_in_tet"], "note": ""},
 {"property": "C33", "status": "proved", "theorems": ["C33_flip23_quality", "C33_flip32_quality", "C33_rejected_leaves_unchanged", "C33_no_infinite_sequence", "C33_flip_quality", "C33_flip_quality_untracked_refuted", "C33_local_optimum_refuted"], "note": "Quality flips from a mesh where the flip is possible; flip_quality under flips_safe (every accepted flip is one that keeps the mesh consistent). Refuted: flip_quality on an untracked mesh panics; flip_quality does not reach a local optimum."},
 {"property": "C34", "status": "proved", "theorems": ["C34_edge", "C34_tri", "C34_keeps", "C34_recover_call", "C34_recover_call_tri", "C34_careful_predicates", "C34_nothing", "C34_direct_tri", "C34_direct_edge", "C34_histories", "C34_failure_changes_nothing_refuted", "C34_any_orientation_refuted"], "note": "C34_edge and C34_tri are the main theorems, by induction on the depth; C34_keeps says what any number of the search's flips preserves; C34_recover_call(_tri) are the two ways the library calls the search; C34_careful_predicates drops the exception for predicates that refuse existing elements and mind the ids; C34_histories shows that every mesh built by the public operations with a tracked triangle map qualifies. Two expectations are refuted: a failed search may leave a changed mesh, and with a degenerate orientation test the search builds a broken mesh. That exact geometry excludes the clash in a mesh without overlaps is not proved."},
 {"property": "C35", "status": "proved", "theorems": ["C35_between_operations_no_flag_is_set", "C35_convex", "C35_concave", "C35_star_shaped_start_is_kept", "C35_locks", "C35_assertion", "C35_predicates", "C35_single_tet_start", "C35_contains_the_start_refuted", "C35_locked_triangle_alone_refuted", "C35_convex_without_extension_refuted"], "note": "For every sphere test that does not depend on the order of a tet of the mesh (steady) and every orientation test invariant under rotating the triangle (turning); C35_predicates shows the exact tests of the crate satisfy this, C35_between_operations_no_flag_is_set that every mesh built with the API has no search flag set. C35_concave describes the result as the largest star-shaped part of what the extension found. Three tempting stronger claims are refuted with witnesses: the start can be dropped, a locked triangle without locked edges can be swallowed, convex mode without extension leaves flags behind."},
 {"property": "C36", "status": "proved", "theorems": ["C36_fill", "C36_vertex_attached", "C36_between_operations", "C36_new_vertex_is_loose", "C36_single_tet", "C36_histories", "C36_search_and_fill", "C36_pinched_boundary_refuted", "C36_reusing_an_enclosed_vertex_refuted"], "note": "C36_fill is the main theorem: filled (InsSpec.v) says what the result is in terms of the walker API. It holds for every region whose complete boundary is given and is a connected surface (each oriented edge once, one fan per vertex, all connected) and every unattached vertex whose reference is unset; C36_histories extends well-formedness to any mixture of flips, locks, vertex additions and fills; C36_search_and_fill combines it with the search of C35. Two weaker preconditions are refuted with witnesses: a pinched boundary, and a vertex that an earlier cavity enclosed. That a geometric cavity has such a boundary is not proved."},
 {"property": "C37", "status": "proved", "theorems": ["C37_circular_list", "C37_terminates", "C37_stops_only_at_start"], "note": ""},
 {"property": "C38", "status": "proved", "theorems": ["C38_hilbert_sort_permutes", "C38_hilbert_sort_order"], "note": "Up to 2^32 points (ids are 32 bit); an empty list panics. Coordinate arithmetic, comparison and curve index are arbitrary functions."},
 {"property": "C39", "status": "proved", "theorems": ["C39_construction", "C39_iteration", "C39_returned_ids", "C39_from_obj", "C39_no_rings_refuted", "C39_empty_ring_refuted"], "note": "Hypotheses: vertices exist, rings and faces not empty, at most 2^32-1 elements. The calls that violate the second one panic (refuted theorems). Positions are exact points; the f32 to f64 conversion of from_obj is not modelled."},
 {"property": "C40", "status": "proved", "theorems": ["C40_faces"], "note": "For every function computing the plane from positions; the formula itself (float sums) is abstract."},
 {"property": "C41", "status": "proved", "theorems": ["C41_values", "C41_ids_stable"], "note": "value_after is the independent description of what each call does to the value of a pair."},
 {"property": "C42", "status": "proved", "theorems": ["C42_validate", "C42_boxes", "C42_ok_iff", "C42_reported", "C42_shared_vertex_refuted"], "note": "For all geometric tests given as functions of positions, every tolerance and every bounding volume tree whose boxes contain those of their children (ncollide3d is not part of the repository; its traversal is modelled as: descend unless the boxes are disjoint). C42_ok_iff needs the tests to fire only for elements with points within twice the tolerance of each other in each coordinate; the float computation of the tests is not modelled."},
 {"property": "C43", "status": "proved", "theorems": ["C43_volume_and_centroid", "C43_volume_changes_sign"], "note": ""},
 {"property": "C44", "status": "proved", "theorems": ["C44_locked_boundary", "C44_region_is_kept_refuted"], "note": "Proved when the hull triangles are locked; refuted in general (C44_region_is_kept_refuted): a flip of a solid tet with a ghost tet counts as an improvement and removes volume."},
 {"property": "C45", "status": "proved", "theorems": ["C45_edge", "C45_crossing", "C45_keeps"], "note": "C45_edge is the main theorem (the clash and the panic are its other two cases, stated in the theorem); C45_crossing shows that crossing elements are among those that the flips never make again; C45_keeps says what any number of flips and locks of the recover functions preserves. The geometric tests and the list of crossing elements are parameters."},
 {"property": "C46", "status": "proved", "theorems": ["C46_tri", "C46_present", "C46_untracked_refuted"], "note": "C46_tri is the main theorem; outcome (RecSpec.v) names the two exceptions: a clash of a wanted flip, and a gap (nothing listed is in the way but the element is not there, a panic in the code). C46_present is the case without flips. C46_untracked_refuted: recover_and_lock_tri panics on a mesh that does not track its triangles, which the caller cannot switch on."},
 {"property": "C47", "status": "proved", "theorems": ["C47_edges", "C47_boundary", "C47_boundary_edges_locked_refuted"], "note": "C47_edges for any order of the hash set, C47_boundary from a mesh with or without tracking. The number of missing elements is only printed by the code; the model returns them. C47_boundary_edges_locked_refuted: the edges of triangles that are already there are not locked, although the documentation says so."},
 {"property": "C48", "status": "proved", "theorems": ["C48_histories", "C48_distance", "C48_exact_distances", "C48_insert", "C48_insert_from_first_vertex", "C48_duplicate_point_refuted"], "note": "C48_insert for every comparison of distances that is an order (distances; C48_exact_distances shows the exact one is), every hash order, every mesh built with the API (C48_histories). That the boundary of the cavity is a connected surface is a geometric fact about Delaunay meshes and stays a hypothesis, shown to hold on the witness. The Delaunay property is proved across the cavity boundary, not globally. C48_duplicate_point_refuted: inserting a copy of a vertex panics."},
 {"property": "C49", "status": "proved", "theorems": ["C49_integrity", "C49_all_attached", "C49_all_positive", "C49_passing_is_well_formed_refuted"], "note": "Both directions, for any mesh and any orientation test (C49_integrity); C18 shows that the meshes made by histories of flips pass. C49_passing_is_well_formed_refuted: two overlaid copies of a mesh pass."},
 {"property": "C50", "status": "proved", "theorems": ["C50_returns", "C50_all_points_used", "C50_start", "C50_well_formed"], "note": "C50_returns, C50_all_points_used for every result the model returns, with no hypothesis but fewer than 2^32 points. C50_well_formed has as a hypothesis that the cavities met on the way are bounded by connected surfaces (sound_cavities), checked on the seven-point witness. That the result is globally Delaunay is not claimed; C48 gives it across each cavity boundary."},
 {"property": "C51", "status": "proved", "theorems": ["C51_search", "C51_panics", "C51_exact_test", "C51_exact", "C51_point", "C51_listed", "C51_corners_refuted"], "note": "C51_search for every fair test; C51_exact for exact coordinates; C51_point the rational point; C51_listed connects it to C46 (that no ghost edge crosses stays a hypothesis there). C51_corners_refuted: the variant for several triangles lists edges that only touch a corner."},
 {"property": "C52", "status": "proved", "theorems": ["C52_way", "C52_each", "C52_joined", "C52_exact_tests", "C52_order", "C52_general"], "note": "C52_way for every even-handed test, n crossings at a time; C52_each, C52_joined; C52_exact_tests shows that the exact tests qualify; C52_order and C52_general for positively oriented meshes. General position (no edge coplanar with the segment, the goal in no other tet) is an explicit hypothesis, shown to be met."},
 {"property": "C53", "status": "proved", "theorems": ["C53_segments", "C53_point"], "note": "C53_segments an equivalence with a geometric definition; C53_point the rational point."},
 {"property": "C54", "status": "proved", "theorems": ["C54_points", "C54_choice", "C54_general", "C54_closest_refuted"], "note": "C54_points, C54_choice, C54_general; C54_closest_refuted shows that the documented claim (closest to the midpoint) is false."},
 {"property": "C55", "status": "proved", "theorems": ["C55_first_time", "C55_lost", "C55_star_shaped_until_then_refuted"], "note": "C55_first_time is the exact meaning, C55_lost one direction of the documented claim; C55_star_shaped_until_then_refuted shows that the other direction is false."},
 {"property": "C56", "status": "proved", "theorems": ["C56_recovers", "C56_exact", "C56_joined", "C56_order", "C56_step"], "note": "C56_recovers for all tests that treat both directions alike and all roundings, C56_exact with the exact tests; the cavities met are required to be fillable (sound_run), which is shown to be met by a run with two new vertices. C56_order (no rounding), C56_joined, C56_step (when the cavity is found)."},
 {"property": "C57", "status": "proved", "theorems": ["C57_recovers", "C57_exact", "C57_boundary", "C57_places", "C57_locked_triangle_kept_refuted"], "note": "C57_recovers for all planar triangulations (a record of functions), tests that treat both directions alike and roundings; C57_exact with the exact tests; the cavities met are required to be fillable (sound_tri), which is shown to be met by a run with one new vertex and three pieces. C57_boundary needs that no piece is laid on the wrong side of the front (neat_tri), which that run meets too. C57_places: the points with the exact tests. C57_locked_triangle_kept_refuted: a locked triangle with unlocked edges can be lost."},
 {"property": "C58", "status": "proved", "theorems": ["C58_normal", "C58_non_sliver", "C58_non_sliver_ghost", "C58_close", "C58_close_complete", "C58_close_ghost", "C58_close_sound_refuted", "C58_sliver_kind", "C58_distance"], "note": "Exact arithmetic: coordinates and the tolerance are integers, rounding is not modelled. C58_close_sound_refuted: tet_close_to_vertex also accepts points far from the tet, beyond a sharp corner or edge."},
 {"property": "C59", "status": "proved", "theorems": ["C59_export", "C59_outward"], "note": "The file format and the rounding to f32 are outside the model."},
 {"property": "C60", "status": "proved", "theorems": ["C60_apart", "C60_third", "C60_fourth", "C60_complete_refuted"], "note": "Exact arithmetic; the sorting keys stay parameters. C60_complete_refuted: the first two points are never exchanged."},
 {"property": "C61", "status": "proved", "theorems": ["C61_closed", "C61_insert", "C61_take_out"], "note": "The map of edges is only required to be right for the vertices concerned."},
 {"property": "C62", "status": "proved", "theorems": ["C62_shell", "C62_cap", "C62_locks", "C62_locks_refuted"], "note": "That the tets around an edge form one ring and those around a vertex are connected is not claimed for the result; it depends on the triangles filling a disc. C62_locks_refuted: locks of the bottom triangles are not copied."},
 {"property": "C63", "status": "proved", "theorems": ["C63_twins", "C63_sides", "C63_numbering_refuted"], "note": "Not claimed: that the function returns, and the shape of the mesh after it (C35, C36, C61 and C62 are about its steps). C63_numbering_refuted: line 3195 uses the handle of an edge as that of a vertex."}
]}
