(** Model of [move_steiner_points_inside_volume] (src/tet.rs 3090-3230).

    The constrained triangulation in the plane ([spade]) is a parameter: a state and the answers it
    gives.  Handles of its vertices and edges are natural numbers.  Coordinates are exact integers, and
    rounding is a parameter wherever a root or a fraction is taken. *)
From stdpp Require Import base numbers list gmap option.
From Coq Require Import NArith ZArith QArith.
From Verif Require Import IdMapModel WalkerModel MeshModel MeshOps GeoModel UtilModel IterModel CavModel InsModel DelModel WayModel MidModel TolModel TransModel.
Local Open Scope nat_scope.

(** The calls to the triangulation; [None] is a panic.  [c_half c p n s] is
    [get_edge_from_neighbors(p, n).unwrap().ccw_iter().take_while(|e| e.to() != s)], [c_disk c p] is
    [vertex(p).ccw_out_edges()], [c_tri c e] is [(e.to(), e.from(), e.ccw().to())], [c_locate c p] is [locate_vertex] at the
    transformed position, [c_constrain] is [add_constraint] and the assertion after it, and [c_region] is
    [cdt_region]. *)
Record cdt_ops (C : Type) := CdtOps {
  c_half : C → nat → nat → nat → option (list nat);
  c_disk : C → nat → option (list nat);
  c_tri : C → nat → option (nat * nat * nat);
  c_remove : C → nat → option C;
  c_locate : C → pt → option nat;
  c_constrain : C → nat → nat → option C;
  c_region : C → gmap N nat → gmap nat N → N → N → option (list (N * N * N)) }.
Global Arguments c_half {_}. Global Arguments c_disk {_}. Global Arguments c_tri {_}. Global Arguments c_remove {_}.
Global Arguments c_locate {_}. Global Arguments c_constrain {_}. Global Arguments c_region {_}.

Section move.
  Context {V T C : Type}.
  Context (ops : cdt_ops C) (dflt : T).
  (** [unit v] is [v.normalize()]; [scaled t e d] is [d * t.map_or(e.norm() / 2.0, |t| t / 2.0)]; both rounded. *)
  Context (unit : pt → pt) (scaled : option Q → pt → pt → pt).
  Implicit Types (m : mesh V T).

  (** The variables of the loops: [self], [cdt], [vertex_map], [inv_map], [new_steiner]. *)
  Record mstate := MState { ms_mesh : mesh V T; ms_cdt : C; ms_vmap : gmap N nat; ms_imap : gmap nat N; ms_new : list N }.

  (** [self.vertices[v].position = p]. *)
  Definition set_pos m (v : N) (p : pt) : option (mesh V T) :=
    vt ← im_get (m_verts m) v;
    vs ← im_set (m_verts m) v (Vertex (v_tet vt) (v_flags vt) p (v_val vt));
    Some (with_verts m vs).

  (** src/tet.rs 3112-3114, 3174-3177: the second vertex at the same place. *)
  Definition add_twin m (point : N) : option (mesh V T * N * pt) :=
    vt ← im_get (m_verts m) point;
    let '(m, sym) := add_vertex m (v_pos vt) (v_val vt) in
    Some (m, sym, v_pos vt).

  (** src/tet.rs 3123-3126, 3186-3189: how far [point] can go in the directions [up] and [down]. *)
  Definition times m (point sym : N) (original up down : pt) : option (mesh V T * option Q * option Q) :=
    m ← set_pos m sym (vadd original up);
    point_time ← time_until_not_star_shaped m point point sym;
    m ← set_pos m sym (vadd original down);
    sym_time ← time_until_not_star_shaped m point point sym;
    Some (m, point_time, sym_time).

  (** src/tet.rs 3128-3129, 3196-3197. *)
  Definition shift m (point sym : N) (original edge_vec up down : pt) (point_time sym_time : option Q) : option (mesh V T) :=
    m ← set_pos m point (vadd original (scaled point_time edge_vec up));
    set_pos m sym (vadd original (scaled sym_time edge_vec down)).

  (** src/tet.rs 3138-3150, 3199-3211: the second vertex is put into the part of the ball around [point] that
      is not on the side of the pieces [edges]. *)
  Definition insert_twin (cdt : C) (imap : gmap nat N) m (point sym : N) (edges : list nat) : option (mesh V T) :=
    ws ← from_list m point;
    exclude ← mapM (λ e,
      '(a, b, c) ← c_tri ops cdt e;
      va ← imap !! a; vb ← imap !! b; vc ← imap !! c;
      r ← walker_from_tri m (va, vb, vc);
      w ← r; Some (w_tet w)) edges;
    '(m, boundary, enclosure) ← point_cavity (sphere_of m sym) (side_of m sym) m
      ((λ w, to_perm w P3210) <$> ws) (w_tet <$> ws) exclude false true false;
    '(m, _) ← flip_in_vertex_unchecked m sym boundary enclosure;
    Some m.

  (** [inv_map[&cdt.edge(e).to().fix()]]. *)
  Definition ends (cdt : C) (imap : gmap nat N) (edges : list nat) : option (list N) :=
    mapM (λ e, t ← c_tri ops cdt e; imap !! t.1.1) edges.

  (** src/tet.rs 3157-3162, 3217-3222: the handles are looked up again.  If two vertices are found at one handle,
      the code keeps one of them, depending on the hash. *)
  Definition relocate (cdt : C) m (vmap : gmap N nat) : option (gmap N nat * gmap nat N) :=
    l ← mapM (λ x : N * nat, p ← vpos m x.1; h ← c_locate ops cdt p; Some (x.1, h)) (map_to_list vmap);
    Some (list_to_map l, list_to_map ((λ x : N * nat, (x.2, x.1)) <$> l)).

  (** src/tet.rs 3111-3169: moving the vertex [point] of the side [edge]; [next] comes after it. *)
  Definition move_edge_point (normal : pt) (edge : N * N) (edge_vec tangent : pt) (s : mstate) (pn : N * N) : option mstate :=
    let '(point, next) := pn in
    let '(MState m cdt vmap imap new) := s in
    let up := vadd normal tangent in
    let down := vsub tangent normal in
    '(m, sym, original) ← add_twin m point;
    '(m, point_time, sym_time) ← times m point sym original up down;
    m ← shift m point sym original edge_vec up down point_time sym_time;
    hp ← vmap !! point; hn ← vmap !! next; h0 ← vmap !! edge.1;
    edges ← c_half ops cdt hp hn h0;
    m ← insert_twin cdt imap m point sym edges;
    l ← ends cdt imap edges;
    let cap_vertices := l ++ [edge.1] in
    cdt ← c_remove ops cdt hp;
    '(vmap, imap) ← relocate cdt m (delete point vmap);
    h0 ← vmap !! edge.1; hn ← vmap !! next;
    cdt ← c_constrain ops cdt h0 hn;
    tris ← c_region ops cdt vmap imap edge.1 next;
    m ← cap_transform dflt m cap_vertices point sym tris;
    Some (MState m cdt vmap imap (new ++ [point; sym])).

  (** src/tet.rs 3106-3110: the vertices of one side. *)
  Definition move_side (normal : pt) (s : mstate) (x : (N * N) * list N) : option mstate :=
    let '(edge, line) := x in
    p1 ← vpos (ms_mesh s) edge.2; p0 ← vpos (ms_mesh s) edge.1;
    let edge_vec := vsub p1 p0 in
    let tangent := unit (vcross edge_vec normal) in
    mfoldl (move_edge_point normal edge edge_vec tangent) (zip line (drop 1 line ++ [edge.2])) s.

  (** src/tet.rs 3173-3227: moving a vertex inside the triangle.  Line 3195 uses the handle of an edge as that of
      a vertex. *)
  Definition move_inner_point (normal : pt) (s : mstate) (point : N) : option mstate :=
    let '(MState m cdt vmap imap new) := s in
    let up := normal in
    let down := vsub (Pt 0 0 0) normal in
    '(m, sym, original) ← add_twin m point;
    '(m, point_time, sym_time) ← times m point sym original up down;
    hp ← vmap !! point;
    edges ← c_disk ops cdt hp;
    e0 ← head edges; v ← imap !! e0;
    pv ← vpos m v; pp ← vpos m point;
    m ← shift m point sym original (vsub pv pp) up down point_time sym_time;
    m ← insert_twin cdt imap m point sym edges;
    shell_vertices ← ends cdt imap edges;
    cdt ← c_remove ops cdt hp;
    '(vmap, imap) ← relocate cdt m (delete point vmap);
    a ← shell_vertices !! 0; b ← shell_vertices !! 1;
    tris ← c_region ops cdt vmap imap a b;
    m ← shell_transform dflt m shell_vertices point sym tris;
    Some (MState m cdt vmap imap (new ++ [point; sym])).

  (** src/tet.rs 3090-3230 [move_steiner_points_inside_volume]: the mesh and the vertices returned. *)
  Definition move_inside m (tri : N * N * N) (s0 s1 s2 sf : list N) (cdt : C) (vmap : gmap N nat) (imap : gmap nat N)
      : option (mesh V T * list N) :=
    let '(t0, t1, t2) := tri in
    n ← tri_normal m t0 t1 t2;
    let normal := unit n in
    s ← mfoldl (move_side normal) [((t0, t1), s0); ((t1, t2), s1); ((t2, t0), s2)] (MState m cdt vmap imap []);
    s ← mfoldl (move_inner_point normal) sf s;
    Some (ms_mesh s, ms_new s).
End move.
