# Formal model of hayashi-stl/tet in Rocq (Coq 8.16.1)

## Layout

* `properties.jsonl`: the English properties C01..
* `rocq/theories/*Model.v` and `MeshOps.v`: the model, function by function, each definition citing
  `/repo/src` file and lines. No proofs in there.
* `rocq/theories/*Spec.v`: small independent vocabulary used to state the theorems.
* `rocq/theories/Prop*.v`: the final theorems `Cnn_...`, each with a `Print Assumptions`; beside them a
  concrete case meeting the hypotheses (`Cnn_witness...`).
* the other files: lemmas. `MeshCheck.v`, `HistCheck.v`, `InsCheck.v` hold sound boolean procedures used
  only to establish hypotheses on concrete meshes.
* `MANIFEST.json`: property -> theorem names and status.
* `seeded/LOG.jsonl`: log of seeded bugs tried against the theorems.

## Trusted base

* Coq's kernel (8.16.1), including `vm_compute` conversion, which is used on closed terms (walker tables,
  concrete meshes).
* `Print Assumptions` prints "Closed under the global context" for every theorem in `MANIFEST.json`: no
  axiom is used, not even one of the standard library. Libraries: the standard library and std++. (Loading
  std++ loads ssreflect files that declare the module type `ssrunder` with its parameters; no theorem
  depends on them.)
* No `Admitted`, no `Axiom`, no section-less `Variable`, no functor or module type, no kernel flag.
* That the model says what the code does: the correspondence is by reading. Every definition cites lines.

## Modelling conventions

* Ids are `N` (binary naturals) and are u32 in Rust. The reserved id is `2^32-1`. The only place where
  an id is computed from an unbounded number (`idx as u32` in `IdMap::insert`) truncates
  explicitly in the model. Theorems that need it ask for room (`roomy`).
* `&mut self` becomes a function returning the new value. Interior mutability (`Cell` flags behind `&`)
  is made explicit in the same way. A panic (failed index, `unwrap`, `unreachable!`, explicit panic) and an
  out-of-contract `get_unchecked` become `None`, and theorems that promise a result state `= Some ..`.
* Hash maps and hash sets become finite maps / membership (iteration order is never observed by the
  modelled code).
* Iterators are state machines with a `next` function where their state matters (early drop, marks left
  behind), and the list of their items elsewhere.
* Unbounded loops use fuel computed from the size of the structure, and running out of fuel is `None`. The
  theorems prove `Some`, so the fuel is enough for every input.
* Coordinates are exact integers (`Z`). A finite f64 is a dyadic rational, so every finite set of them is a
  set of integers up to a common power of two; the predicates of `robust-geo` and `simplicity` are trusted
  to return the exact sign. Functions that really round (`quality`, norms, plane fitting) are modelled over
  an abstract arithmetic: the theorems hold for any of them.
* Closures given by the caller are arbitrary functions.

## Properties, model, proof

| id | modelled | proof | file |
|----|----------|-------|------|
| C01-C06 | `id_map.rs` over a slot table with holes and a free stack | invariant by induction over operation lists, refinement to a finite map | PropIdMap |
| C07-C09 | walker tables of `tet.rs` | case analysis over the 12 positions, lifted to all tets | PropWalker |
| C10-C11 | `sorted_*`, `even_sorted_*`, `TriVertices` | case analysis on the order of ids | PropWalker |
| C12 | `TetMesh::new`, `with_ids` | symbolic execution for both orientations, arbitrary positions | PropMesh |
| C13-C22 | mesh records, `to_adj`, the flips, locks, triangle map | "surgery" lemma: replacing a region with matching boundary keeps the mesh well formed; each flip is an instance; induction over histories | PropMesh |
| C23-C27 | iterators and look-ups, safe and flag-marking variants | graph-search invariants, injective step on a finite set | PropIter |
| C28-C29, C31-C32 | `geo.rs` predicates over Z | `ring`/`nia` identities | PropGeo |
| C30, C33, C44 | quality over abstract arithmetic, `flip_quality` | order independence from C10, multiset argument, induction over rounds | PropQual |
| C34 | `progress_by_removing_edge`, `progress_by_removing_tri` | induction on depth; the mesh changes by approved flips only | PropProg |
| C35 | `point_cavity` | loop invariants over "painted" flags, greatest star-shaped subset | PropCav |
| C36 | `flip_in_vertex_unchecked` | stage by stage execution, surgery lemma | PropIns |
| C37-C38 | `util.rs` | induction, permutation | PropIter |
| C39-C41 | `plc.rs` construction | doubly linked list invariant by induction over calls | PropPlc |
| C42 | `validate`, `IntersectionTest::visit` decision logic, tests abstract | list reasoning over the traversal | PropPlcVal |
| C43 | `tet_volume_x6`, `tet_centroid` | direct | PropGeo |
| C45-C47 | `recover_and_lock_edge`, `_tri`, `_edges`, `_boundary`; the geometry is a parameter | invariants of the two nested loops on top of C34, composition of outcomes | PropRec |
| C48 | `add_vertex_delaunay`, `add_vertex_delaunay_internal`, `vertex_distance2`; the comparisons of distances and the hash order are parameters | the walk ends because distances shrink; composition of C23-C27, C35 and C36; symmetry of the in-sphere test | PropDel |
| C49 | `assert_integrity`, on arbitrary meshes | list reasoning, check by check, both directions | PropInt |
| C50 | `delaunay_from_vertices`, `with_ids` with any ids; sorting keys, tolerance tests, distances, centre and hash order are parameters | invariant of the insertions (which id holds what); renaming of vertices from the mesh of `new`; composition of C37, C48 and C49 | PropFrom |
| C51 | `tri_intersections_raw`, `tris_intersections_raw`; the test of an edge is a parameter, with the exact ones as instances | invariant of the depth-first search (measure: edges not yet visited); polynomial identity for the point | PropCross |
| C52-C53 | `edge_intersections_raw`, `edge_edge_bary`, `edge_intersects_edge`; C52 has the tests as parameters, with the exact ones as instances | every list of walkers is matched with what may come next around a place (`ahead`); induction on the way; determinant identities for the order, for arriving at the goal and for two segments; counting for termination | PropWay |
| C54 | `edge_intersections`, `edge_mid_intersection`, with exact numbers | least element of a list; the points from C51, C53 | PropMid |
| C55 | `time_until_not_star_shaped`, with exact fractions | the coordinates describe when the moving point is in a triangle; least element | PropTime |
| C56 | `recover_edge_with_steiner_points`; the tests and the rounding of the new points are parameters, recursion is limited by a number | induction on the recursion; composition of C35, C36, C52, C54; the starting cavity is seen from a point inside the crossed element | PropStein |
| C57 | `recover_tri_with_steiner_points`, `tris_intersections`; the planar triangulation (`spade`, `cdt_region`, `tri_xy`, hash order) is a record of functions, the tests and the rounding are parameters, rounds are limited by a number | invariant of the loop; composition of C35, C36, C51, C56; a sum over directed edges for the border | PropTStein |
| C58 | `tri_normal`, `non_sliver`, `tet_close_to_vertex`, `sliver_kind`, `vertex_position`, `vertex_distance`, with exact numbers (roots of fractions) | distance to a plane and between lines by the normal vector and the inequality of Cauchy and Schwarz, over whole weights | PropTol |
| C59 | `export_debug_obj`, the data that is written, rounding to `f32` is a parameter | list reasoning, tet by tet | PropObj |
| C60 | the tests in `delaunay_from_vertices` that pick the first four points, as exact instances of the parameters of C50 | distance to a line by the cross product; C50, C58; greatest element of a list | PropStart |
| C61 | `insert_tet`, and the taking out of a tet in `cap_transform` and `shell_transform` | meshes with holes (`open_mesh`); step by step execution on views of the mesh | PropTrans |
| C62 | `cap_transform`, `shell_transform` | invariants of the two loops on top of C61; the replacement is stated by triangles (`replaceable`, `replaced`): same surface, so that each triangle finds its other side; the ring of the edge for the shell | PropTrans |
| C63 | `move_steiner_points_inside_volume`, with the triangulation in the plane as a parameter | what every step keeps of the places and values of vertices, on any mesh; a run of partings, and what it says about the end | PropMove |

`mesh_ok` (`MeshSpec.v`) is the notion of a well formed mesh, stated with the walker API (`valid`, `to_adj`,
`w_verts`, ...): see the comments on its fields. `reachable` (`HistSpec.v`) are the meshes built from
`TetMesh::new` by admissible calls, `built` (`PropIns.v`) also allows filling cavities.

## Modelled

* `lib.rs`: ids, the reserved id. `id_map.rs`: everything but the mutable iterators.
* `util.rs`: everything (the space filling curve of `hilbert` is a parameter).
* `tet.rs` 39-298 (types, sorting, flags), 315-699 (walkers), 705-1179 (all flips and their `_unlocked`,
  `_quality` variants), 1189-1512 (`progress_by_removing_*`), 1517-1735 (`point_cavity`, edge rings),
  1739-2166 (mesh, construction, look-ups, traversals, volume, centroid), 2172-2345
  (`flip_in_vertex_unchecked`), 2438-2546 (`add_vertex_delaunay*`), 2549-2615 (`flip_quality`), 2672-2817, 2839-2947, 3237-3302,
  3090-3230 (`move_steiner_points_inside_volume`; `spade`, normalizing and scaling are parameters), 2949-3087 (`insert_tet`, `cap_transform`, `shell_transform`), 3427-3484 (`recover_and_lock_*` without Steiner points), 3486-3533 (`export_debug_obj`, the data), 3539-3686 (`assert_integrity`), 3716-3875
  (iterators). `tet/geo.rs`: the predicates, `quality`, the tests against the tolerance, the lists of crossings and their points,
  `time_until_not_star_shaped` (points and times are exact fractions).
* `plc.rs`: types, construction (`add_vertex`, `add_edge`, `add_edge_if_absent`, `add_face`, `from_obj`),
  ring and face iterators, `validate`; `plc/intersect.rs`: the visitor's decisions.

## Not modelled

* `tet/geo.rs`: `tri_xy`.
* `tet.rs`: `cdt_region` (a parameter); the file written by `export_debug_obj` (its data is modelled).
* `plc.rs`: `tris` (constrained triangulation by `spade`), OBJ parsing, error message formatting, the
  mutable iterators and plain accessors.
* Floating-point rounding, the contents of `stable-vec`, `robust-geo`, `simplicity`, `ncollide3d`,
  `nalgebra`, `spade`, `hilbert`, hashing, memory allocation.

## Findings

Statements one would expect and that are false of the code. Those marked R are refuted by a theorem
(`..._refuted`) with a concrete witness.

* Flips
  * R `flip14_unchecked` stores a wrong reference for the first vertex unless the walker starts at the
    first vertex stored in its tet (706-709, 757).
  * R `flip23_unchecked` on apexes that are already joined creates a second edge with the same ends.
  * R `flip32_unchecked` when the link triangle already exists creates it twice.
  * `flip44_unchecked` forgets the lock of the rotated faces (the code has a TODO).
* Triangle map: `set_track_tri_map(false)` leaves the stale map behind; R `flip_quality` reads it even when
  it is not tracked, R and looks triangles up by unsorted keys, so that most of the initial ones are missed.
* R `flip_quality` can remove hull triangles (ghost tets have the best quality), so it erodes the meshed
  region unless its boundary is locked (C44 proves that locking suffices).
* Look-ups: `walker_from_tri` without the map panics for an unattached first vertex; traversals from the
  ghost vertex or an unattached vertex panic; `assert_integrity` rejects meshes with unattached vertices.
* `point_cavity`: R not in convex mode it may drop the starting tets; R a locked triangle whose edges are
  not locked can be swallowed; R `convex && !remove_non_delaunay` leaves flags behind; a `println!` is left
  in the loop (1656).
* `flip_in_vertex_unchecked`: R the boundary must be a connected surface with one fan per vertex, otherwise
  edge ids are wrong; R a vertex enclosed by an earlier cavity keeps a stale reference, and using it again
  leaves that reference wrong.
* `progress_by_removing_*`: R a search that fails can leave a changed mesh behind; R nothing but the
  orientation tests keeps it from making an edge or triangle a second time.
* `recover_and_lock_*`: R those for a single edge or triangle, and for the edges of a PLC, panic on a mesh that
  does not track its triangles, while the function to make it do so is private; R the edges of a triangle
  that is already there are not locked; when nothing listed is in the way but the element is not there (an
  edge that runs through a vertex, say) they panic (2731, 3292).
* `geo.rs` 342, 495-496: `!a && b || c` where `!a && (b || c)` is meant; R so `tris_intersections` reports edges that only
  touch a corner of the triangles, even their own edges.
* R `edge_mid_intersection` (450) compares the coordinates of different crossings without dividing by their sums, so it does not
  return the crossing closest to the midpoint.
* R `delaunay_from_vertices` panics ("All points are collinear within the tolerance") on points that are not, when the first two in
  the order of the curve are closer than the tolerance: they are never exchanged.
* R `shell_transform` and `cap_transform` do not copy the locks of the triangles at the bottom, so that a locked one is left locked
  from one side only. The map of edges keeps the id of the edge that the shell transform has removed; it is not used again.
* R `move_steiner_points_inside_volume` (3195) looks up the handle of an edge among the handles of vertices, so that it panics or takes the
  length of an unrelated edge, depending on how the triangulation numbers its edges.
* R `time_until_not_star_shaped` returns when the surface of the ball is passed; the ball can stop being star-shaped long
  before that, when the plane of a triangle is passed outside the triangle.
* R `tet_close_to_vertex` looks at the planes of the triangles, so it also accepts points far from the tet, beyond a sharp corner.
* `recover_edge_with_steiner_points` panics if the element crossed is locked, or if the rounded point is not inside the starting cavity;
  C56_step says when it does not.
* R `recover_tri_with_steiner_points` can remove a locked triangle whose edges are not locked: the assertion that should prevent it
  looks at the lock of an edge (2758-2763).
* `add_vertex_delaunay_internal` (2506-2532): when the walk fails, only one further ring is searched; R a point
  that coincides with a vertex makes it panic.
* `assert_integrity`: R a mesh that passes need not be well formed: two tets may lie on the same side of a triangle
  (it never looks for repeated triangles).
* `insert_tet` (2967) panics for the ghost vertex.
* Plc: the ring of an isolated vertex overwrites that vertex's earlier ring; `add_edge` accepts loops;
  R `add_face` without rings, or with an empty ring, panics after having inserted the face; R `validate` never
  tests pairs of elements that share a vertex.
* `hilbert_sort` panics on empty input. R Ids wrap around after 2^32 insertions (C02, C06).
* R `even_sorted_3` is not canonical for repeated vertices.
