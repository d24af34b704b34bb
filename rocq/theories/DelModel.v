(** Model of the insertion of a vertex into a Delaunay tetrahedralization, src/tet.rs 2438-2544
    ([add_vertex_delaunay], [add_vertex_delaunay_internal]). *)
From stdpp Require Import base numbers list gmap option.
From Coq Require Import NArith ZArith.
From Verif Require Import IdMapModel WalkerModel MeshModel MeshOps UtilModel IterModel GeoModel CavModel InsModel.
Local Open Scope nat_scope.

(** [Iterator::min_by_key]: the first of the smallest elements; [less x y] is [key(x) < key(y)]. *)
Definition min_by (less : N → N → bool) (l : list N) : option N :=
  match l with
  | [] => None
  | x :: l => Some (fold_left (λ best y, if less y best then y else best) l x)
  end.

Section del.
  Context {V T : Type}.
  Implicit Types (m : mesh V T) (w : walker).

  (** src/tet.rs 2129-2146 [vertex_distance2], with exact numbers instead of rounded ones; [None] is
      infinity. *)
  Definition vertex_distance2 m (a b : N) : option (option Z) :=
    if N.eqb a GHOST then Some (if N.eqb b GHOST then Some 0%Z else None)
    else if N.eqb b GHOST then Some None
    else p ← v_pos <$> im_get (m_verts m) a; q ← v_pos <$> im_get (m_verts m) b; Some (Some (norm2 (vsub p q))).
  (** The comparison [<] of such distances to [id]; a panic counts as infinity. *)
  Definition nearer m (id : N) (a b : N) : bool :=
    match default None (vertex_distance2 m a id), default None (vertex_distance2 m b id) with
    | Some x, Some y => Z.ltb x y
    | Some _, None => true
    | None, _ => false
    end.

  (** src/tet.rs 2110-2116 [vertex_targets_opt], consumed to the end and dropped: at most
      [number of vertices + 2] calls of [next]. *)
  Definition targets_collect m (v : N) : option (mesh V T * list N) :=
    s ← vertex_target_walkers_opt m v;
    match iter_take vto_next (length (im_keys (m_verts m)) + 2) s with
    | Some (l, s') => l ← mapM (w_second s'.1.1) l; m ← vto_drop s'; Some (m, l)
    | None => None
    end.

  (** src/tet.rs 2072-2079 [vertex_tets_opt], consumed to the end and dropped: at most
      [number of tets + 1] calls of [next]. *)
  Definition tets_collect m (v : N) : option (mesh V T * list N) :=
    s ← walkers_from_vertex_opt m v;
    match iter_take wfvo_next (length (im_keys (m_tets m)) + 1) s with
    | Some (l, s') => m ← wfvo_drop s'; Some (m, w_tet <$> l)
    | None => None
    end.

  (** src/tet.rs 2483-2486, 2509-2512, 2528-2529: [in_sphere(vs[0], vs[1], vs[2], vs[3], id) > 0.0]. *)
  Definition violates m (id : N) (tet : N) : option bool :=
    t ← tet_get m tet;
    s ← in_sphere m (q0 (t_vs t)) (q1 (t_vs t)) (q2 (t_vs t)) (q3 (t_vs t)) id;
    Some (Z.ltb 0 s).

  (** src/tet.rs 2508-2513: [vertex_tets_opt(closest).find(..)]; the state is kept to drop it. *)
  Fixpoint find_iter (fuel : nat) (id : N) (s : mesh V T * list N * list walker) : option (option N * (mesh V T * list N * list walker)) :=
    match fuel with
    | 0 => None
    | S fuel =>
      '(r, s) ← wfvo_next s;
      match r with
      | None => Some (None, s)
      | Some w => b ← violates s.1.1 id (w_tet w);
                  if (b : bool) then Some (Some (w_tet w), s) else find_iter fuel id s
      end
    end.
  Definition find_around m (id v : N) : option (mesh V T * option N) :=
    s ← walkers_from_vertex_opt m v;
    '(r, s) ← find_iter (length (im_keys (m_tets m)) + 1) id s;
    m ← wfvo_drop s;
    Some (m, r).

  (** src/tet.rs 2526-2533: the loop over the tets next to those; the end of the queue is the
      [panic!] of line 2535. *)
  Fixpoint find_next m (id : N) (checked : gset N) (tets : list N) : option N :=
    match tets with
    | [] => None
    | tet :: tets =>
      if decide (tet ∈ checked) then find_next m id checked tets
      else b ← violates m id tet;
           if (b : bool) then Some tet else find_next m id ({[tet]} ∪ checked) tets
    end.

  (** The comparison [<] of rounded distances to the new vertex, and the one that [FloatOrd] makes.
      They read positions, which the search does not change, so they are arbitrary functions here.
      [order] is the order in which a hash set of tet ids is iterated. *)
  Context (less lt : N → N → bool) (order : list N → list N).

  (** src/tet.rs 2491-2503: going to neighbours that are nearer.  [fuel] bounds the rounds; the
      theorems show that it is never used up. *)
  Fixpoint walk (fuel : nat) m (id closest : N) : option (mesh V T * N) :=
    match fuel with
    | 0 => None
    | S fuel =>
      '(m, l) ← targets_collect m closest;
      match min_by less (filter (λ v : N, v ≠ id) l) with
      | Some closer => if lt closer closest then walk fuel m id closer else Some (m, closest)
      | None => Some (m, closest)
      end
    end.

  (** src/tet.rs 2481-2541: the tet to start from. *)
  Definition find_start m (id search_start : N) : option (mesh V T * N) :=
    lucky_tet ← w_tet <$> walker_from_vertex m search_start;
    b ← violates m id lucky_tet;
    if (b : bool) then Some (m, lucky_tet)
    else
      '(m, closest) ← walk (length (im_keys (m_verts m)) + 1) m id search_start;
      '(m, r) ← find_around m id closest;
      match r with
      | Some tet => Some (m, tet)
      | None =>
        '(m, checked) ← tets_collect m closest;
        adj ← mapM (adjacent_tets m) checked;
        tet ← find_next m id (list_to_set checked) (order (remove_dups (concat adj)));
        Some (m, tet)
      end.

  (** src/tet.rs 2466-2480: storing the vertex. *)
  Definition put_vertex m (id : option N) (p : pt) (x : V) : option (mesh V T * N) :=
    match id with
    | Some id => '(vs, _) ← im_insert_with_key (m_verts m) id (Vertex (Walker invalid_id 0) vf_empty p x);
                 Some (with_verts m vs, id)
    | None => Some (add_vertex m p x)
    end.
End del.

Section insert.
  Context {V T : Type}.
  Implicit Types (m : mesh V T).
  (** The tests for the new vertex, as functions of vertex ids (see [point_cavity]); a panic counts
      as 0. *)
  Definition sphere_of m (v : N) (vs : arr4 N) : Z := default 0%Z (in_sphere m (q0 vs) (q1 vs) (q2 vs) (q3 vs) v).
  Definition side_of m (v : N) (t : N * N * N) : Z := default 0%Z (orient_3d m t.1.1 t.1.2 t.2 v).

  (** src/tet.rs 2452-2546 [add_vertex_delaunay_internal].  The comparisons of distances are given
      the mesh and the id of the new vertex. *)
  Definition add_vertex_delaunay_internal (less lt : mesh V T → N → N → N → bool) (order : list N → list N)
      m (id : option N) (p : pt) (x : V) (search_start : N) : option (mesh V T * N) :=
    '(m, id) ← put_vertex m id p x;
    '(m, not_delaunay) ← find_start (less m id) (lt m id) order m id search_start;
    let walker := walker_from_tet_id not_delaunay in
    '(m, boundary, enclosed) ← point_cavity (sphere_of m id) (side_of m id) m (to_edge walker <$> [0; 1; 2; 3]) [not_delaunay] [] true false true;
    '(m, _) ← flip_in_vertex_unchecked m id boundary enclosed;
    Some (m, id).

  (** src/tet.rs 2438-2450 [add_vertex_delaunay]; [keys()] is in increasing order. *)
  Definition add_vertex_delaunay less lt order m (p : pt) (x : V) : option (mesh V T * N) :=
    start ← head (im_keys (m_verts m));
    add_vertex_delaunay_internal less lt order m None p x start.
End insert.
