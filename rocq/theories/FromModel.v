(** Model of building a Delaunay tetrahedralization, src/tet.rs 2344-2436
    ([delaunay_from_vertices]). *)
From stdpp Require Import base numbers list gmap option.
From Coq Require Import NArith ZArith.
From Verif Require Import IdMapModel WalkerModel MeshModel MeshOps UtilModel GeoModel NewMesh DelModel.
Local Open Scope nat_scope.

Section from.
  Context {V T : Type}.
  Implicit Types (m : mesh V T).

  (** The simulation-of-simplicity orientation test of four points (crate [simplicity]). *)
  Context (sim : pt → pt → pt → pt → bool).

  (** src/tet.rs 1802-1879 [with_ids], for any ids ([with_ids] in MeshModel.v is the case of [new]):
      the vertices are sorted by id. *)
  Definition with_ids_at m (vertices : list (N * (pt * V))) (dflt : T) : option (mesh V T) :=
    match sort_key fst vertices with
    | [x0; x1; x2; x3] =>
      let swap := negb (sim x0.2.1 x1.2.1 x2.2.1 x3.2.1) in
      let tw id e := Walker id e in
      let sw : nat := if swap then 1 else 0 in
      let idxs := [3; 2; 1 - sw; sw] in
      vs ← im_extend (m_verts m) (imap (λ i (x : N * (pt * V)), (x.1, Vertex (tw 0%N (nth i idxs 0)) vf_empty x.2.1 x.2.2)) [x0; x1; x2; x3]);
      let v0 := x0.1 in
      let v1 := x1.1 in
      let v2 := if swap then x3.1 else x2.1 in
      let v3 := if swap then x2.1 else x3.1 in
      let v4 := GHOST in
      let '(es, ei) := im_extend_values (m_edges m) (uedge_new <$>
         [(v0, v1); (v0, v2); (v0, v3); (v1, v2); (v1, v3); (v2, v3);
          (v0, v4); (v1, v4); (v2, v4); (v3, v4)]) in
      let e i := nth i ei 0%N in
      let '(ts, _) := im_extend_values (m_tets m)
         [tet_new (A4 v0 v1 v2 v3) (A4 (tw 1%N 7) (tw 2%N 7) (tw 3%N 7) (tw 4%N 7))
                  (A6 (e 5) (e 0) (e 3) (e 2) (e 4) (e 1)) dflt;
          tet_new (A4 v1 v2 v3 v4) (A4 (tw 2%N 8) (tw 3%N 5) (tw 4%N 2) (tw 0%N 4))
                  (A6 (e 9) (e 3) (e 5) (e 7) (e 8) (e 4)) dflt;
          tet_new (A4 v0 v3 v2 v4) (A4 (tw 1%N 8) (tw 4%N 5) (tw 3%N 2) (tw 0%N 5))
                  (A6 (e 8) (e 2) (e 5) (e 6) (e 9) (e 1)) dflt;
          tet_new (A4 v3 v0 v1 v4) (A4 (tw 4%N 8) (tw 1%N 5) (tw 2%N 2) (tw 0%N 6))
                  (A6 (e 7) (e 2) (e 0) (e 9) (e 6) (e 4)) dflt;
          tet_new (A4 v2 v1 v0 v4) (A4 (tw 3%N 8) (tw 2%N 5) (tw 1%N 2) (tw 0%N 7))
                  (A6 (e 6) (e 3) (e 0) (e 8) (e 7) (e 1)) dflt] in
      Some (with_tets (with_edges (with_verts m vs) es) ts)
    | _ => None
    end.

  (** [slice::swap]; [None] is the panic of an index out of bounds. *)
  Definition swap {A} (l : list A) (i j : nat) : option (list A) :=
    x ← l !! i; y ← l !! j; Some (<[j := x]> (<[i := y]> l)).

  (** The order of the points along the Hilbert curve (see [hilbert_sort]); the rounded tests of the
      triangle and of the tet against the tolerance; the comparison of the former, by [FloatOrd];
      the comparisons of distances and the hash order (see [add_vertex_delaunay_internal]); the
      rounded centre of mass. *)
  Context (norm : Z → Z → Z → N) (curve : N * N * N → N).
  Context (wide2 : pt → pt → pt → bool) (le2 : pt → pt → pt → pt → bool) (wide3 : pt → pt → pt → pt → bool).
  Context (less lt : mesh V T → N → N → N → bool) (order : list N → list N) (center : mesh V T → pt).

  (** src/tet.rs 2386-2395: the point that makes the widest triangle with the first two; the last
      one of several. *)
  Definition pick2 (vertices : list (N * (pt * V))) : option nat :=
    p0 ← (λ x : N * (pt * V), x.2.1) <$> vertices !! 0;
    p1 ← (λ x : N * (pt * V), x.2.1) <$> vertices !! 1;
    let cands := filter (λ x : nat * pt, wide2 p0 p1 x.2 = true) (imap (λ i (x : N * (pt * V)), (2 + i, x.2.1)) (drop 2 vertices)) in
    fst <$> max_by (λ a b : nat * pt, le2 p0 p1 a.2 b.2) cands.

  (** src/tet.rs 2398-2405: the first point from index 3 on that is not in the plane of the first
      three. *)
  Definition pick3 (vertices : list (N * (pt * V))) : option nat :=
    p0 ← (λ x : N * (pt * V), x.2.1) <$> vertices !! 0;
    p1 ← (λ x : N * (pt * V), x.2.1) <$> vertices !! 1;
    p2 ← (λ x : N * (pt * V), x.2.1) <$> vertices !! 2;
    fst <$> list_find (λ x : N * (pt * V), wide3 p0 p1 p2 x.2.1 = true) (drop 3 vertices).

  (** src/tet.rs 2422-2424: inserting the remaining points, each starting from the one before. *)
  Fixpoint insert_all m (prev : N) (vertices : list (N * (pt * V))) : option (mesh V T) :=
    match vertices with
    | [] => Some m
    | (id, (p, x)) :: vertices =>
      match add_vertex_delaunay_internal less lt order m (Some id) p x prev with
      | Some (m, _) => insert_all m id vertices
      | None => None
      end
    end.

  (** src/tet.rs 2347-2416, the first part of [delaunay_from_vertices]: the points in the order they
      will be inserted, with the first four not in a plane, and the mesh of these four. *)
  Definition delaunay_start (points : list (pt * V)) (dflt : T) : option (mesh V T * list (N * (pt * V))) :=
    sorted ← hilbert_sort Z.leb norm curve ((λ x : pt * V, ((px x.1, py x.1, pz x.1), x.2)) <$> points);
    let vertices := (λ x : N * ((Z * Z * Z) * V), (x.1, (Pt x.2.1.1.1 x.2.1.1.2 x.2.1.2, x.2.2))) <$> sorted in
    x0 ← vertices !! 0;
    let m := with_verts mesh_empty (im_extend_values im_empty ((λ _, Vertex (Walker invalid_id 0) vf_empty origin x0.2.2) <$> vertices)).1 in
    v2i ← pick2 vertices;
    vertices ← swap vertices 2 v2i;
    v3i ← pick3 vertices;
    vertices ← swap vertices 3 (v3i + 3);
    m ← with_ids_at m (take 4 vertices) dflt;
    Some (m, vertices).

  (** src/tet.rs 2347-2436 [delaunay_from_vertices]. *)
  Definition delaunay_from_vertices (points : list (pt * V)) (dflt : T) : option (mesh V T) :=
    '(m, vertices) ← delaunay_start points dflt;
    v3 ← vertices !! 3;
    m ← insert_all m v3.1 (drop 4 vertices);
    let m := with_center m (center m) in
    if assert_integrity (Some (positive m)) m then Some m else None.
End from.
