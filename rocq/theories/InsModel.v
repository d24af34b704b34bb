(** Model of the insertion of a vertex into a cavity, src/tet.rs 2172-2342
    ([flip_in_vertex_unchecked]). *)
From stdpp Require Import base numbers list gmap option.
From Coq Require Import NArith ZArith.
From Verif Require Import IdMapModel WalkerModel MeshModel MeshOps IterModel.
Local Open Scope nat_scope.

Section ins.
  Context {V T : Type}.
  Implicit Types (m : mesh V T) (w : walker).

  (** src/tet.rs 174-200: the flags BOUNDARY and NEEDS_DUPLICATION of a tet. *)
  Definition set_tbound (b : bool) (t : tet T) : tet T :=
    let f := t_flags t in
    set_flags (TFlags (f_locked f) (f_imm f) (f_limit f) b (f_wfv f) (f_dup f) (f_notenc f)) t.
  Definition set_tdup (b : bool) (t : tet T) : tet T :=
    let f := t_flags t in
    set_flags (TFlags (f_locked f) (f_imm f) (f_limit f) (f_boundary f) (f_wfv f) b (f_notenc f)) t.

  (** [self.edges[e].field = ..] (panics when absent), the flag BOUNDARY and the field
      [boundary_walker] of an edge (src/tet.rs 125-154). *)
  Definition edge_upd m (e : N) (f : uedge → uedge) : option (mesh V T) :=
    ue ← im_get (m_edges m) e; es ← im_set (m_edges m) e (f ue); Some (with_edges m es).
  Definition set_ebound (b : bool) (ue : uedge) : uedge := UEdge (ue_vs ue) b (ue_locked ue) (ue_bw ue).
  Definition set_bw (w : walker) (ue : uedge) : uedge := UEdge (ue_vs ue) (ue_boundary ue) (ue_locked ue) w.
  Definition put_ebound (b : bool) m w : option (mesh V T) := e ← undir_edge m w; edge_upd m e (set_ebound b).

  (** src/tet.rs 2201-2206: marking a boundary triangle. *)
  Definition mark_tri m w : option (mesh V T) :=
    m ← tet_upd m (w_tet w) (set_tbound true);
    m ← put_ebound true m w; m ← put_ebound true m (to_nfe w); put_ebound true m (to_pfe w).

  (** src/tet.rs 2209-2218: removing the edge unless it is marked or already gone. *)
  Definition drop_edge m (e : N) : mesh V T :=
    match im_get (m_edges m) e with
    | Some ue => if ue_boundary ue then m else with_edges m (im_remove (m_edges m) e).1
    | None => m
    end.
  Definition list6 {X} (x : arr6 X) : list X := [s0 x; s1 x; s2 x; s3 x; s4 x; s5 x].
  (** src/tet.rs 2208-2223: removing the unmarked edges of an enclosed tet, and the tet itself
      unless it is marked. *)
  Definition purge_tet m (id : N) : option (mesh V T) :=
    t ← tet_get m id;
    let m := fold_left drop_edge (list6 (t_edges t)) m in
    t ← tet_get m id;
    Some (if f_boundary (t_flags t) then m else with_tets m (im_remove (m_tets m) id).1).

  (** src/tet.rs 2226-2240: giving each boundary triangle a tet of its own. *)
  Definition own_tet (s : mesh V T * list walker) w : option (mesh V T * list walker) :=
    let '(m, acc) := s in
    t ← tet_get m (w_tet w);
    if f_dup (t_flags t) then
      let '(m, id) := tet_insert m t in
      adj ← to_adj_ae m w;
      m ← tet_upd m (w_tet adj) (λ t', set_opp (w_edge adj mod 4) (Walker id (w_edge (get4 (t_opp t') (w_edge adj mod 4)))) t');
      Some (m, acc ++ [Walker id (w_edge w)])
    else
      m ← tet_upd m (w_tet w) (set_tdup true);
      Some (m, acc ++ [w]).

  (** src/tet.rs 2282-2287, 2290-2294: the entry to store so that [to_adj] of a walker at position
      [e] gives [x]; the last case is [unreachable!]. *)
  Definition entry_for (e : nat) (x : walker) : option walker :=
    match e / 4 with
    | 0 => Some x
    | 1 => Some (to_nfe x)
    | 2 => Some (to_pfe x)
    | _ => None
    end.

  (** src/tet.rs 2274-2300: pairing up the inner triangles at a boundary edge. *)
  Definition join_edge m w : option (mesh V T) :=
    e ← undir_edge m w;
    ue ← im_get (m_edges m) e;
    if negb (N.eqb (w_tet (ue_bw ue)) invalid_id) then
      let walker := to_twin_edge w in
      let adj := to_twin_edge (ue_bw ue) in
      x ← entry_for (w_edge walker) adj;
      m ← tet_upd m (w_tet walker) (set_opp (w_edge walker mod 4) x);
      y ← entry_for (w_edge adj) walker;
      m ← tet_upd m (w_tet adj) (set_opp (w_edge adj mod 4) y);
      edge_upd m e (set_bw (Walker invalid_id (w_edge (ue_bw ue))))
    else edge_upd m e (set_bw w).

  (** src/tet.rs 2246-2301: turning the tet of a boundary triangle into the tet with apex [vertex]. *)
  Definition cone_tri (vertex : N) m w : option (mesh V T) :=
    m ← tet_upd m (w_tet w) (λ t, set_tdup false (set_tbound false t));
    m ← put_ebound false m w; m ← put_ebound false m (to_nfe w); m ← put_ebound false m (to_pfe w);
    m ← tet_upd m (w_tet w) (λ t, set_locked ((w_edge w + 3) mod 4) false
          (set_locked ((w_edge w + 2) mod 4) false (set_locked ((w_edge w + 1) mod 4) false t)));
    m ← tet_upd m (w_tet w) (set_v (w_edge w mod 4) vertex);
    vt ← im_get (m_verts m) vertex;
    let m := if N.eqb (w_tet (v_tet vt)) invalid_id then vert_ref m vertex (to_perm w P3210) else m in
    '(a, b, c) ← w_tri m w;
    let m := vert_ref m a w in
    let m := vert_ref m b (to_nfe w) in
    let m := vert_ref m c (to_pfe w) in
    mfoldl join_edge [w; to_nfe w; to_pfe w] m.

  (** src/tet.rs 2319-2324: writing an edge id to all tets around an edge. *)
  Fixpoint write_ring (fuel : nat) (edge : N) m (start iter : walker) : option (mesh V T) :=
    match fuel with
    | 0 => None
    | S fuel =>
      m ← tet_upd m (w_tet iter) (set_edge (undir_idx (w_edge iter)) edge);
      next ← ring_next m iter;
      if bool_decide (next = start) then Some m else write_ring fuel edge m start next
    end.

  Definition set_added (b : bool) m (v : N) : option (mesh V T) :=
    f ← vertex_flags m v; set_vertex_flags m v (VFlags (vf_targets f) b).

  (** src/tet.rs 2306-2326. *)
  Definition add_spoke (vertex : N) m w : option (mesh V T) :=
    source ← w_first m w;
    f ← vertex_flags m source;
    if vf_edge_added f then Some m
    else
      m ← set_added true m source;
      let '(m, edge) := edge_insert m (source, vertex) in
      write_ring (12 * length (im_keys (m_tets m)) + 1) edge m w w.
  Definition add_spokes (vertex : N) m w : option (mesh V T) :=
    mfoldl (add_spoke vertex) [to_perm w P0312; to_perm w P1320; to_perm w P2301] m.

  (** src/tet.rs 2329-2335. *)
  Definition clear_added m w : option (mesh V T) :=
    mfoldl (λ m u, v ← w_first m u; set_added false m v) [w; to_nfe w; to_pfe w] m.

  (** src/tet.rs 2176-2345 [flip_in_vertex_unchecked]: the mesh and the boundary walkers, which are
      updated too. *)
  Definition flip_in_vertex_unchecked m (vertex : N) (boundary : list walker) (enclosure : list N)
      : option (mesh V T * list walker) :=
    m ← trimap_remove_tets m enclosure;
    m ← mfoldl mark_tri boundary m;
    m ← mfoldl purge_tet enclosure m;
    '(m, boundary) ← mfoldl own_tet boundary (m, []);
    m ← mfoldl (cone_tri vertex) boundary m;
    m ← mfoldl (add_spokes vertex) boundary m;
    m ← mfoldl clear_added boundary m;
    m ← trimap_insert_tets m (w_tet <$> boundary);
    Some (m, boundary).
End ins.
