(** Model of the recovery of edges and triangles by flips (src/tet.rs 2672-2737, 3237-3302, 3427-3484). *)
From stdpp Require Import base numbers list gmap option.
From Coq Require Import NArith ZArith.
From Verif Require Import IdMapModel WalkerModel MeshModel UtilModel IterModel MeshOps QualModel ProgModel.
Local Open Scope nat_scope.

Section recover.
  Context {V T : Type}.
  Implicit Types (m : mesh V T) (w : walker).

  (** The geometry, as any functions of the mesh (src/tet/geo.rs): the sign of [orient_3d]; the tests
      [edge_intersects_edge], [tri_intersects_edge] and [tri_intersects_edge_sim]; the elements listed by
      [edge_intersections_raw] ([other]) and the edges listed by [tri_intersections_raw] ([edge]), where
      [None] is a panic. *)
  Record geometry := Geometry {
    g_ori : mesh V T → N → N → N → N → Z;
    g_ee : mesh V T → N * N → N * N → bool;
    g_te : mesh V T → N * N * N → N * N → bool;
    g_tes : mesh V T → N * N * N → N * N → bool;
    g_cross : mesh V T → N * N → option (list simplex);
    g_tcross : mesh V T → N * N * N → option (list (N * N)) }.
  Context (G : geometry).

  (** [slice::contains] on the vertices of an edge and of a triangle. *)
  Definition edge_has (e : N * N) (v : N) : bool := N.eqb e.1 v || N.eqb e.2 v.
  Definition tri_has (t : N * N * N) (v : N) : bool := N.eqb t.1.1 v || N.eqb t.1.2 v || N.eqb t.2 v.

  (** src/tet.rs 2688-2690, 2709-2711: new edges must not cross the edge to be recovered. *)
  Definition may_edge (edge : N * N) m (e : N * N) : bool :=
    edge_has e edge.1 || edge_has e edge.2 || negb (g_ee G m e edge).
  (** src/tet.rs 2691-2693, 2712-2714: neither must new triangles. *)
  Definition may_tri (edge : N * N) m (t : N * N * N) : bool :=
    tri_has t edge.1 || tri_has t edge.2 || negb (g_te G m t edge).
  (** src/tet.rs 3275-3276: new edges must not cross the triangle to be recovered. *)
  Definition may_edge_t (tri : N * N * N) m (e : N * N) : bool :=
    tri_has tri e.1 || tri_has tri e.2 || negb (g_tes G m tri e).
  (** src/tet.rs 3277: every new triangle will do. *)
  Definition may_any (_ : mesh V T) (_ : N * N * N) : bool := true.

  (** src/tet.rs 2684-2725 and 3272-3288: one attempt to remove an element; [true] if it is gone or was
      not there, [false] if it is in the way.  A failed [assert_eq!] is [None]. *)
  Definition attempt (ea : mesh V T → N * N → bool) (ta : mesh V T → N * N * N → bool) (depth : nat) m (stub : simplex) : option (mesh V T * bool) :=
    match stub with
    | STri t =>
      wo ← walker_from_tri m t;
      match wo with
      | None => Some (m, true)
      | Some w =>
        '(m1, _, _, r) ← remove_tri ea ta (g_ori G) depth w m [] [];
        match r with None => Some (m1, false) | Some 0 => Some (m1, true) | Some (S _) => None end
      end
    | SEdge e =>
      wo ← walker_from_edge m e.1 e.2;
      match wo with
      | None => Some (m, true)
      | Some w =>
        '(m1, _, _, r) ← remove_edge ea ta (g_ori G) depth w m [] [];
        match r with None => Some (m1, false) | Some 0 => Some (m1, true) | Some (S _) => None end
      end
    end.

  (** src/tet.rs 2683-2726, 3271-3289: the inner loop; [stubborn] from its end. *)
  Fixpoint drain (try : mesh V T → simplex → option (mesh V T * bool)) (stubborn : list simplex) m : option (mesh V T * list simplex) :=
    match stubborn with
    | [] => Some (m, [])
    | stub :: rest =>
      '(m1, ok) ← try m stub;
      if ok : bool then drain try rest m1 else Some (m1, stub :: rest)
    end.

  (** src/tet.rs 2679-2727, 3268-3290: the outer loop; [inters] and [stubborn] from their ends. *)
  Fixpoint sweep (try : mesh V T → simplex → option (mesh V T * bool)) (inters stubborn : list simplex) m : option (mesh V T * list simplex) :=
    match inters with
    | [] => Some (m, stubborn)
    | inter :: inters =>
      '(m1, stubborn1) ← drain try (inter :: stubborn) m;
      sweep try inters stubborn1 m1
    end.

  (** src/tet.rs 2672-2737 [recover_and_lock_edge]. *)
  Definition recover_edge m (edge : N * N) (depth : nat) : option (mesh V T * bool) :=
    l ← g_cross G m edge;
    '(m1, stubborn) ← sweep (attempt (may_edge edge) (may_tri edge) depth) (reverse l) [] m;
    match stubborn with
    | [] =>
      wo ← walker_from_edge m1 edge.1 edge.2;
      w ← wo;
      m2 ← set_edge_lock m1 w true;
      Some (m2, true)
    | _ => Some (m1, false)
    end.

  (** src/tet.rs 3240-3245, 3444-3449: [recover_and_lock_edge] with growing depth, until it succeeds. *)
  Fixpoint recover_edge_deeper m (edge : N * N) (depths : list nat) : option (mesh V T * bool) :=
    match depths with
    | [] => Some (m, false)
    | depth :: depths =>
      '(m1, ok) ← recover_edge m edge depth;
      if ok : bool then Some (m1, true) else recover_edge_deeper m1 edge depths
    end.
  (** src/tet.rs 3240, 3255, 3444. *)
  Definition depths : list nat := [1; 2; 4; 8].

  (** src/tet.rs 3239-3248: the edges of the triangle, one after the other, until one fails. *)
  Fixpoint recover_edge_list m (edges : list (N * N)) : option (mesh V T * bool) :=
    match edges with
    | [] => Some (m, true)
    | edge :: edges =>
      '(m1, ok) ← recover_edge_deeper m edge depths;
      if ok : bool then recover_edge_list m1 edges else Some (m1, false)
    end.

  (** src/tet.rs 3255-3301: the loop over the depths. *)
  Fixpoint recover_tri_deeper m (tri : N * N * N) (depths : list nat) : option (mesh V T * bool) :=
    match depths with
    | [] => Some (m, false)
    | depth :: depths =>
      wo ← walker_from_tri m tri;
      match wo with
      | Some w => m1 ← set_tri_lock m w true; Some (m1, true)
      | None =>
        l ← g_tcross G m tri;
        '(m1, stubborn) ← sweep (attempt (may_edge_t tri) may_any depth) (reverse (SEdge <$> l)) [] m;
        match stubborn with
        | [] =>
          wo ← walker_from_tri m1 tri;
          w ← wo;
          m2 ← set_tri_lock m1 w true;
          Some (m2, true)
        | _ => recover_tri_deeper m1 tri depths
        end
      end
    end.

  (** src/tet.rs 3237-3302 [recover_and_lock_tri]. *)
  Definition recover_tri m (tri : N * N * N) : option (mesh V T * bool) :=
    let '(a, b, c) := tri in
    '(m1, ok) ← recover_edge_list m [(a, b); (b, c); (c, a)];
    if ok : bool then recover_tri_deeper m1 tri depths else Some (m1, false).

  (** src/tet.rs 3434-3440: lock the edges that are there, and drop them from the list. *)
  Definition lock_listed (acc : mesh V T * list (N * N)) (x : N * uedge) : option (mesh V T * list (N * N)) :=
    let '(m, l) := acc in
    let '(id, ue) := x in
    if decide (ue_vs ue ∈ l) then
      es ← im_set (m_edges m) id (UEdge (ue_vs ue) (ue_boundary ue) true (ue_bw ue));
      Some (with_edges m es, filter (λ e, e ≠ ue_vs ue) l)
    else Some (m, l).

  (** src/tet.rs 3442-3450: recover the others; those that could not be recovered are returned. *)
  Fixpoint recover_rest m (edges : list (N * N)) : option (mesh V T * list (N * N)) :=
    match edges with
    | [] => Some (m, [])
    | edge :: edges =>
      '(m1, ok) ← recover_edge_deeper m edge depths;
      '(m2, missing) ← recover_rest m1 edges;
      Some (m2, if ok : bool then missing else edge :: missing)
    end.

  (** src/tet.rs 3427-3452 [recover_and_lock_edges], given the vertices of the edges of the PLC;
      [order] is the order in which the hash set yields its elements.  The edges that are still missing
      are only counted by the code. *)
  Definition recover_edges (order : list (N * N) → list (N * N)) m (edges : list (N * N)) : option (mesh V T * list (N * N)) :=
    '(m1, l) ← mfoldl lock_listed (im_iter (m_edges m)) (m, remove_dups (sorted_2 <$> edges));
    recover_rest m1 (order l).

  (** src/tet.rs 3472-3481: lock the triangles that are there; the others are returned. *)
  Fixpoint lock_present m (tris : list (N * N * N)) : option (mesh V T * list (N * N * N)) :=
    match tris with
    | [] => Some (m, [])
    | tri :: tris =>
      wo ← walker_from_tri m tri;
      match wo with
      | Some w => m1 ← set_tri_lock m w true; lock_present m1 tris
      | None => '(m1, missing) ← lock_present m tris; Some (m1, tri :: missing)
      end
    end.

  (** src/tet.rs 3481: recover the others; those that could not be recovered are returned. *)
  Fixpoint recover_tris m (tris : list (N * N * N)) : option (mesh V T * list (N * N * N)) :=
    match tris with
    | [] => Some (m, [])
    | tri :: tris =>
      '(m1, ok) ← recover_tri m tri;
      '(m2, missing) ← recover_tris m1 tris;
      Some (m2, if ok : bool then missing else tri :: missing)
    end.

  (** src/tet.rs 3456-3484 [recover_and_lock_boundary], given the vertices of the triangles of the PLC.
      The triangles that are still missing are only counted by the code. *)
  Definition recover_boundary m (tris : list (N * N * N)) : option (mesh V T * list (N * N * N)) :=
    m ← set_track_tri_map m true;
    '(m1, missing) ← lock_present m (sorted_3 <$> tris);
    recover_tris m1 missing.
End recover.
Arguments geometry V T : clear implicits.
