(** Model of the recovery of a triangle by vertices inserted on it, src/tet.rs 2752-2763, 2839-2947, and of
    src/tet/geo.rs 583-596. *)
From stdpp Require Import base numbers list gmap option.
From Coq Require Import NArith ZArith.
From Verif Require Import IdMapModel WalkerModel MeshModel MeshOps GeoModel GeoSpec IterModel CavModel InsModel QualModel ProgModel DelModel CrossModel WayModel MidModel SteinModel.
Local Open Scope nat_scope.

(** The planar triangulation that the code keeps beside the mesh ([FloatCDT] of the crate spade, with the maps between its
    vertices and those of the mesh, and the transform to the plane), with states [C].  The code decides nothing else in the plane. *)
Record engine (C : Type) : Type := Engine {
  (** src/tet.rs 2867-2883: from the positions of the triangle's corners and of the vertices around it, and the edges between these;
      [None] if an edge is not there afterwards. *)
  e_start : list pt → list (N * pt) → gset (N * N) → option C;
  (** src/tet.rs 2886: [edges.iter().next()], in hash order. *)
  e_pick : C → gset (N * N) → option (N * N);
  (** src/tet.rs 2889, 2819-2837 [cdt_region]; [None] if the edge is missing. *)
  e_region : C → N * N → option (list (N * N * N));
  (** src/tet.rs 2895-2898: a new vertex. *)
  e_insert : C → N → pt → C;
  (** src/tet.rs 2917-2921: the third vertex is on the left of the edge. *)
  e_left : C → N → N → N → bool;
  (** src/tet.rs 2937-2938: a new edge that must not be flipped; [None] if it is not there afterwards. *)
  e_constrain : C → N → N → option C }.
Arguments e_start {C}. Arguments e_pick {C}. Arguments e_region {C}. Arguments e_insert {C}. Arguments e_left {C}. Arguments e_constrain {C}.

(** src/tet.rs 2862-2863: [vertices.iter().zip(vertices.iter().cycle().skip(1))]. *)
Definition around (l : list N) : list (N * N) := zip l (tail l ++ take 1 l).

Section triangle.
  Context {V T C : Type}.
  Implicit Types (m : mesh V T) (w : walker).
  (** The tests of the searches, the rounding of a point on a segment, and of a point on a triangle. *)
  Context (tbary : mesh V T → N → N → N → N → N → option (list Z)).
  Context (ebary : mesh V T → N → N → N → N → option (list Z)).
  Context (flat : mesh V T → N → N → N → N → option bool).
  Context (round : ratio → pt).
  Context (eng : engine C).

  (** src/tet/geo.rs 592-595: [p0 + (p1 - p0) * bary[1] / sum + (p2 - p0) * bary[2] / sum], with exact numbers. *)
  Definition point_in (p0 p1 p2 : pt) (bary : list Z) : ratio :=
    let sum := (nth 0 bary 0 + nth 1 bary 0 + nth 2 bary 0)%Z in
    (vadd (vadd (vscale sum p0) (vscale (nth 1 bary 0%Z) (vsub p1 p0))) (vscale (nth 2 bary 0%Z) (vsub p2 p0)), sum).

  (** src/tet/geo.rs 583-596 [tris_intersections]. *)
  Definition tris_intersections m (tris : list (N * N * N)) (start : N * N) : option (list ((N * N) * ratio)) :=
    l ← tris_intersections_raw tbary m tris start;
    mapM (λ x : (N * N) * (list Z * (N * N * N)),
      let '(e, (bary, (v0, v1, v2))) := x in
      p0 ← position m v0; p1 ← position m v1; p2 ← position m v2; Some (e, point_in p0 p1 p2 bary)) l.

  (** src/tet.rs 2752-2763 [assert_edge_removable_by_tri_steiner], [assert_tri_removable_by_tri_steiner]: both look at the edge. *)
  Definition assert_edge_free_t m w : option unit := b ← w_edge_locked m w; if (b : bool) then None else Some tt.
  Definition assert_tri_free_t m w : option unit := b ← w_edge_locked m w; if (b : bool) then None else Some tt.

  (** src/tet.rs 2902-2910: the boundary and the tets that the search for a cavity starts from. *)
  Definition tri_steiner_start m (e : N * N) : option (list walker * list N) :=
    wo ← walker_from_edge m e.1 e.2;
    w ← wo;
    _ ← assert_edge_free_t m w;
    ring ← ring_list m w;
    _ ← mapM (assert_tri_free_t m) ring;
    Some (concat (List.map (λ w, [to_opp_edge w; to_perm w P3210]) ring), w_tet <$> ring).

  (** The variables of the loop.  The code does not keep the pieces: they are there for the statements. *)
  Record tstate : Type := TState {
    ts_mesh : mesh V T;
    ts_plane : C;
    ts_vertices : list N;
    ts_inner : list N;
    ts_edges : gset (N * N);
    ts_pieces : list (N * N * N) }.

  (** src/tet.rs 2886-2891: what to do next: an edge of the front, and what is in the way first. *)
  Definition tri_next (st : tstate) : option ((N * N) * option ((N * N) * ratio)) :=
    edge ← e_pick eng (ts_plane st) (ts_edges st);
    tris ← e_region eng (ts_plane st) edge;
    l ← tris_intersections (ts_mesh st) tris edge;
    Some (edge, head l).

  (** src/tet.rs 2893-2912: the new vertex and its cavity. *)
  Definition tri_cavity m (t0 : N) (inter : (N * N) * ratio) : option (mesh V T * N * list walker * list N) :=
    value ← v_val <$> im_get (m_verts m) t0;
    let '(m, steiner) := add_vertex m (round inter.2) value in
    '(boundary, enclosure) ← tri_steiner_start m inter.1;
    '(m, boundary, enclosure) ← point_cavity (sphere_of m steiner) (side_of m steiner) m boundary enclosure [] false true true;
    Some (m, steiner, boundary, enclosure).

  (** src/tet.rs 2940-2942: [if !edges.remove(&[v0, v1]) { edges.insert([v1, v0]); }]. *)
  Definition pass (edges : gset (N * N)) (e : N * N) : gset (N * N) :=
    if decide (e ∈ edges) then edges ∖ {[e]} else {[(e.2, e.1)]} ∪ edges.

  (** src/tet.rs 2924-2932: the triangle and its edges are locked. *)
  Definition lock_piece m w : option (mesh V T) :=
    m ← set_tri_lock m w true;
    m ← set_edge_lock m w true;
    m ← set_edge_lock m (to_nfe w) true;
    set_edge_lock m (to_pfe w) true.

  (** src/tet.rs 2915-2922: [find]; looking at a missing vertex panics. *)
  Fixpoint find_piece m (vertices : list N) (c : C) (edge : N * N) (ring : list walker) : option (option (walker * N)) :=
    match ring with
    | [] => Some None
    | w :: ring =>
      v2 ← w_third m w;
      if bool_decide (v2 ∈ vertices) && e_left eng c edge.1 edge.2 v2 then Some (Some (w, v2)) else find_piece m vertices c edge ring
    end.

  (** src/tet.rs 2885-2944: one round. *)
  Definition tri_step (t0 : N) (st : tstate) : option tstate :=
    '(edge, inter) ← tri_next st;
    match inter with
    | Some inter =>
      '(m, steiner, boundary, enclosure) ← tri_cavity (ts_mesh st) t0 inter;
      '(m, _) ← flip_in_vertex_unchecked m steiner boundary enclosure;
      Some (TState m (e_insert eng (ts_plane st) steiner (round inter.2)) (ts_vertices st ++ [steiner]) (ts_inner st ++ [steiner]) (ts_edges st) (ts_pieces st))
    | None =>
      wo ← walker_from_edge (ts_mesh st) edge.1 edge.2;
      w ← wo;
      ring ← ring_list (ts_mesh st) w;
      f ← find_piece (ts_mesh st) (ts_vertices st) (ts_plane st) edge ring;
      '(w, v2) ← f;
      m ← lock_piece (ts_mesh st) w;
      let sides := [edge; (edge.2, v2); (v2, edge.1)] in
      c ← foldl (λ c e, c ← c; e_constrain eng c (e : N * N).2 e.1) (Some (ts_plane st)) sides;
      Some (TState m c (ts_vertices st) (ts_inner st) (foldl pass (ts_edges st) sides) (ts_pieces st ++ [(edge.1, edge.2, v2)]))
    end.

  (** src/tet.rs 2885-2945: the loop; [fuel] bounds the rounds: the model says [None] if it is used up, and the code goes on. *)
  Fixpoint tri_loop (fuel : nat) (t0 : N) (st : tstate) : option tstate :=
    if decide (ts_edges st = ∅) then Some st
    else match fuel with
      | 0 => None
      | S fuel => st ← tri_step t0 st; tri_loop fuel t0 st
      end.

  (** src/tet.rs 2850-2855: the sides. *)
  Definition recover_sides (depth n : nat) m (t : N * N * N) : option (mesh V T * (list N * list N * list N)) :=
    let '(t0, t1, t2) := t in
    '(m, l0) ← recover_steiner tbary ebary flat round depth n m t0 t1;
    '(m, l1) ← recover_steiner tbary ebary flat round depth n m t1 t2;
    '(m, l2) ← recover_steiner tbary ebary flat round depth n m t2 t0;
    Some (m, (l0, l1, l2)).

  (** src/tet.rs 2857-2883: the state the loop starts from. *)
  Definition tri_start m (t : N * N * N) (l : list N * list N * list N) : option tstate :=
    let '(t0, t1, t2) := t in
    let '(l0, l1, l2) := l in
    let vertices := t0 :: l0 ++ t1 :: l1 ++ t2 :: l2 in
    let edges := list_to_set (around vertices) in
    corners ← mapM (position m) [t0; t1; t2];
    places ← mapM (λ v, p ← position m v; Some (v, p)) vertices;
    c ← e_start eng corners places edges;
    Some (TState m c vertices [] edges []).

  (** src/tet.rs 2839-2947 [recover_tri_with_steiner_points]: the mesh, the new vertices on the sides, those inside and the
      pieces.  [depth] and [n] bound the recursion of the sides and the crossings looked at, [fuel] the rounds. *)
  Definition recover_tri_steiner (fuel depth n : nat) m (t : N * N * N) : option (mesh V T * (list N * list N * list N) * list N * list (N * N * N)) :=
    '(m, sides) ← recover_sides depth n m t;
    st ← tri_start m t sides;
    st ← tri_loop fuel t.1.1 st;
    Some (ts_mesh st, sides, ts_inner st, ts_pieces st).
End triangle.
Arguments tstate : clear implicits.
