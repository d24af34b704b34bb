(** Model of the traversals of src/tet.rs: edge rings, the walkers and targets of a vertex, and the
    lookups built on them. *)
From stdpp Require Import base numbers list gmap option.
From Coq Require Import NArith.
From Verif Require Import IdMapModel WalkerModel MeshModel MeshOps UtilModel.
Local Open Scope nat_scope.

Section iter.
  Context {V T : Type}.
  Implicit Types (m : mesh V T) (w : walker).

  (** src/tet.rs 490-497 [edge_ring] and 1719-1735 [WalkerEdgeRing]. *)
  Definition edge_ring_next m (s : citer walker) : option (option walker * citer walker) :=
    match ci_next (λ _, Some ()) (ring_next m) s with
    | None => None
    | Some (None, s') => Some (None, s')
    | Some (Some (w, _), s') => Some (Some w, s')
    end.
  Definition edge_ring m w : citer walker := ci_new w.

  (** src/tet.rs 3731-3738: the three walkers pushed for a tet (in pushing order). *)
  Definition wfv_around m w : option (walker * walker * walker) :=
    x1 ← to_adj m (to_perm w P1032);
    x2 ← to_adj m (to_perm w P2013);
    x3 ← to_adj m (to_perm w P3021);
    Some (x1, x2, x3).

  (** src/tet.rs 3716-3740 [WalkersFromVertex::next]; the state is [(visited, to_search)] with the
      end of the vector [to_search] at the head of the list. *)
  Fixpoint wfv_pop m (visited : gset N) (stack : list walker) : option (option walker * (gset N * list walker)) :=
    match stack with
    | [] => Some (None, (visited, []))
    | w :: stack =>
      if decide (w_tet w ∈ visited) then wfv_pop m visited stack
      else '(x1, x2, x3) ← wfv_around m w;
           Some (Some w, ({[w_tet w]} ∪ visited, x3 :: x2 :: x1 :: stack))
    end.
  Definition wfv_next m (s : gset N * list walker) : option (option walker * (gset N * list walker)) :=
    wfv_pop m s.1 s.2.

  (** src/tet.rs 2043-2049 [walkers_from_vertex] (panics for a vertex that does not exist). *)
  Definition walkers_from_vertex m (v : N) : option (gset N * list walker) :=
    w ← walker_from_vertex m v; Some (∅, [w]).

  (** src/tet.rs 2067-2069 [vertex_tets]: the ids of those walkers' tets. *)
  Definition vertex_tets_next m (s : gset N * list walker) : option (option N * (gset N * list walker)) :=
    match wfv_next m s with
    | None => None
    | Some (r, s') => Some (match r with None => None | Some w => Some (w_tet w) end, s')
    end.

  (** [tet.set_flags(WALKERS_FROM_VERTEX)], [clear_flags(WALKERS_FROM_VERTEX)]. *)
  Definition set_wfv (b : bool) (t : tet T) : tet T :=
    let f := t_flags t in
    set_flags (TFlags (f_locked f) (f_imm f) (f_limit f) (f_boundary f) b (f_dup f) (f_notenc f)) t.

  (** src/tet.rs 3752-3774 [WalkersFromVertexOpt::next]; the flags are interior mutable state of the
      mesh, so the mesh is part of the state: [(mesh, visited, to_search)]. *)
  Fixpoint wfvo_pop m (visited : list N) (stack : list walker)
      : option (option walker * (mesh V T * list N * list walker)) :=
    match stack with
    | [] => Some (None, (m, visited, []))
    | w :: stack =>
      t ← tet_get m (w_tet w);
      if f_wfv (t_flags t) then wfvo_pop m visited stack
      else m' ← tet_upd m (w_tet w) (set_wfv true);
           '(x1, x2, x3) ← wfv_around m' w;
           Some (Some w, (m', visited ++ [w_tet w], x3 :: x2 :: x1 :: stack))
    end.
  Definition wfvo_next (s : mesh V T * list N * list walker) := wfvo_pop s.1.1 s.1.2 s.2.

  (** src/tet.rs 2056-2065 [walkers_from_vertex_opt]. *)
  Definition walkers_from_vertex_opt m (v : N) : option (mesh V T * list N * list walker) :=
    w ← walker_from_vertex m v; Some (m, [], [w]).

  (** src/tet.rs 3776-3782 [Drop for WalkersFromVertexOpt]; yields the mesh left behind. *)
  Definition wfvo_drop (s : mesh V T * list N * list walker) : option (mesh V T) :=
    mfoldl (λ m id, tet_upd m id (set_wfv false)) s.1.2 s.1.1.

  (** src/tet.rs 3805-3813: the loop around an edge.  [fuel] bounds the number of rounds; the
      theorems show that [12 * number of tets] rounds are never used up. *)
  Fixpoint vt_ring (fuel : nat) m (start adj : walker) (stack : list walker) : option (list walker) :=
    match fuel with
    | 0 => None
    | S fuel =>
      adj' ← to_adj m (to_perm adj P3021);
      if decide (adj' = start) then Some (adj :: stack) else vt_ring fuel m start adj' (adj :: stack)
    end.
  Definition vt_around m w (stack : list walker) : option (list walker) :=
    x ← to_adj m w;
    let start := to_nfe x in
    vt_ring (12 * length (im_keys (m_tets m))) m start start stack.

  (** src/tet.rs 3790-3822 [VertexTargetWalkers::next]. *)
  Fixpoint vt_pop m (visited : gset N) (stack : list walker) : option (option walker * (gset N * list walker)) :=
    match stack with
    | [] => Some (None, (visited, []))
    | w :: stack =>
      target ← w_second m w;
      if decide (target ∈ visited) then vt_pop m visited stack
      else stack' ← vt_around m w stack;
           Some (Some w, ({[target]} ∪ visited, stack'))
    end.
  Definition vt_next m (s : gset N * list walker) : option (option walker * (gset N * list walker)) :=
    vt_pop m s.1 s.2.

  (** src/tet.rs 2081-2087 [vertex_target_walkers]. *)
  Definition vertex_target_walkers m (v : N) : option (gset N * list walker) :=
    w ← walker_from_vertex m v; Some (∅, [w]).

  (** src/tet.rs 2106-2108 [vertex_targets] and 3868-3875 [VertexTargets]. *)
  Definition vertex_targets_next m (s : gset N * list walker) : option (option N * (gset N * list walker)) :=
    match vt_next m s with
    | None => None
    | Some (None, s') => Some (None, s')
    | Some (Some w, s') => b ← w_second m w; Some (Some b, s')
    end.

  (** src/tet.rs 1901-1907 [vertex_flags]. *)
  Definition vertex_flags m (v : N) : option vflags :=
    if decide (v = GHOST) then Some (m_ghost_flags m) else v_flags <$> im_get (m_verts m) v.
  Definition set_vertex_flags m (v : N) (f : vflags) : option (mesh V T) :=
    if decide (v = GHOST) then Some (with_ghost_flags m f)
    else vt ← im_get (m_verts m) v;
         vs ← im_set (m_verts m) v (Vertex (v_tet vt) f (v_pos vt) (v_val vt)); Some (with_verts m vs).
  Definition set_targets (b : bool) m (v : N) : option (mesh V T) :=
    f ← vertex_flags m v; set_vertex_flags m v (VFlags b (vf_edge_added f)).

  (** src/tet.rs 3832-3857 [VertexTargetWalkersOpt::next]. *)
  Fixpoint vto_pop m (visited : list N) (stack : list walker)
      : option (option walker * (mesh V T * list N * list walker)) :=
    match stack with
    | [] => Some (None, (m, visited, []))
    | w :: stack =>
      target ← w_second m w;
      f ← vertex_flags m target;
      if vf_targets f then vto_pop m visited stack
      else m' ← set_targets true m target;
           stack' ← vt_around m' w stack;
           Some (Some w, (m', visited ++ [target], stack'))
    end.
  Definition vto_next (s : mesh V T * list N * list walker) := vto_pop s.1.1 s.1.2 s.2.

  (** src/tet.rs 2093-2102 [vertex_target_walkers_opt]. *)
  Definition vertex_target_walkers_opt m (v : N) : option (mesh V T * list N * list walker) :=
    w ← walker_from_vertex m v; Some (m, [], [w]).

  (** src/tet.rs 3859-3866 [Drop for VertexTargetWalkersOpt]. *)
  Definition vto_drop (s : mesh V T * list N * list walker) : option (mesh V T) :=
    mfoldl (set_targets false) s.1.2 s.1.1.

  (** src/tet.rs 1997-2001 [walker_from_edge]; at most [number of vertices + 2] calls of [next]. *)
  Definition walker_from_edge m (a b : N) : option (option walker) :=
    s ← vertex_target_walkers m a;
    iter_find_map (vt_next m) (λ w, b' ← w_second m w; Some (if decide (b' = b) then Some w else None))
      (length (im_keys (m_verts m)) + 2) s.

  (** src/tet.rs 2005-2027 [walker_from_tri]; without the triangle map at most
      [number of tets + 1] calls of [next]. *)
  Definition tri_of_walker m (t : N * N * N) w : option (option walker) :=
    t1 ← w_tri m w;
    if decide (t1 = t) then Some (Some w)
    else t2 ← w_tri m (to_nve w);
         if decide (t2 = t) then Some (Some (to_nve w))
         else t3 ← w_tri m (to_pve w);
              Some (if decide (t3 = t) then Some (to_pve w) else None).
  Definition walker_from_tri m (t : N * N * N) : option (option walker) :=
    if m_track m then walker_from_tri_tracked m t
    else s ← walkers_from_vertex m t.1.1;
         iter_find_map (wfv_next m) (tri_of_walker m t) (length (im_keys (m_tets m)) + 1) s.

  (** src/tet.rs 2031-2033 [walker_from_tet]. *)
  Definition walker_from_tet m (a b c d : N) : option (option walker) :=
    r ← walker_from_tri m (a, b, c);
    match r with
    | None => Some None
    | Some w => d' ← w_fourth m w; Some (if decide (d' = d) then Some w else None)
    end.
End iter.
