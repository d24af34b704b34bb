(** Model of [edge_edge_bary], [edge_intersects_edge] and of the walk along the line from a vertex to
    another one, src/tet/geo.rs 274-443. *)
From stdpp Require Import base numbers list gmap option.
From Coq Require Import NArith ZArith.
From Verif Require Import IdMapModel WalkerModel MeshModel MeshOps UtilModel IterModel GeoModel QualModel ProgModel CrossModel.
Local Open Scope nat_scope.

Section exact.
  Context {V T : Type}.
  Implicit Types (m : mesh V T).
  Local Open Scope Z_scope.

  (** src/tet/geo.rs 276-306 [edge_edge_bary], with exact numbers.  The three calls of [robust_geo::cross_2d]
      are the coordinates of the cross product of [p1 - p0] and [p3 - p2]. *)
  Definition edge_edge_bary m (v0 v1 v2 v3 : N) : option (list Z) :=
    p0 ← idx_ori m v0; p1 ← idx_ori m v1; p2 ← idx_ori m v2; p3 ← idx_ori m v3;
    let cross := vcross (vsub p1 p0) (vsub p3 p2) in
    if (px cross =? 0) && (py cross =? 0) && (pz cross =? 0) then Some [0; 0; 0; 0]
    else
      let p4 := vadd (if N.eqb v2 GHOST then p3 else p2) cross in
      Some [(if has_ghost [v1; v2; v3] then -1 else 1) * orient p2 p1 p3 p4;
            (if has_ghost [v2; v0; v3] then -1 else 1) * orient p3 p0 p2 p4;
            (if has_ghost [v0; v1; v3] then -1 else 1) * orient p1 p3 p0 p4;
            (if has_ghost [v0; v1; v2] then -1 else 1) * orient p0 p2 p1 p4].

  (** src/tet/geo.rs 310-322 [edge_intersects_edge]. *)
  Definition edge_intersects_edge m (v0 v1 v2 v3 : N) : option bool :=
    o ← orient_3d m v0 v1 v2 v3;
    if bool_decide (o ≠ 0) then Some false
    else
      b ← edge_edge_bary m v0 v1 v2 v3;
      Some (all_pos b || all_neg b).

  (** src/tet/geo.rs 351-356: [orient_3d(edge[0], edge[1], v0, v1) == 0.0]. *)
  Definition coplanar m (v0 v1 v2 v3 : N) : option bool := o ← orient_3d m v0 v1 v2 v3; Some (bool_decide (o = 0)).
End exact.

Section way.
  Context {V T : Type}.
  Implicit Types (m : mesh V T) (w : walker).

  (** The coordinates of [tri_edge_bary], of [edge_edge_bary] and the test [orient_3d(..) == 0.0], as any
      functions of the mesh and the vertices: the signs are what counts. *)
  Context (tbary : mesh V T → N → N → N → N → N → option (list Z)).
  Context (ebary : mesh V T → N → N → N → N → option (list Z)).
  Context (flat : mesh V T → N → N → N → N → option bool).

  Definition tri_has (t : N * N * N) (v : N) : bool := N.eqb t.1.1 v || N.eqb t.1.2 v || N.eqb t.2 v.

  (** An entry of the result, [EdgeIntersectionRaw]: what is crossed and two coordinates. *)
  Definition crossing : Type := simplex * (Z * Z).

  (** src/tet/geo.rs 331-340: the first pass; [stop] is [end]. *)
  Fixpoint tri_pass m (v0 v1 : N) (stop : bool) (ws : list walker) : option (list (walker * (N * N * N) * list Z) * bool) :=
    match ws with
    | [] => Some ([], stop)
    | w :: ws =>
      t ← w_tri m w;
      if tri_has t v1 || stop then
        '(l, stop) ← tri_pass m v0 v1 true ws;
        Some ((w, t, [0; 0; 0; 0; 0]%Z) :: l, stop)
      else
        b ← tbary m t.1.1 t.1.2 t.2 v0 v1;
        '(l, stop) ← tri_pass m v0 v1 stop ws;
        Some ((w, t, b) :: l, stop)
    end.
  (** src/tet/geo.rs 327-347 [tri_raw].  [&&] binds tighter than [||]. *)
  Definition tri_raw m (v0 v1 : N) (ws : list walker) : option (option (walker * crossing) * bool) :=
    '(l, stop) ← tri_pass m v0 v1 false ws;
    let hit := List.find (λ e : walker * (N * N * N) * list Z, negb stop && all_pos e.2 || all_neg e.2) l in
    Some ((λ e : walker * (N * N * N) * list Z, (e.1.1, (STri e.1.2, (nth 3 e.2 0, nth 4 e.2 0)%Z))) <$> hit, stop).

  (** src/tet/geo.rs 349-371 [edge_raw]. *)
  Fixpoint edge_find m (v0 v1 : N) (ws : list walker) : option (option (walker * crossing)) :=
    match ws with
    | [] => Some None
    | w :: ws =>
      e ← w_pair m w;
      f ← flat m e.1 e.2 v0 v1;
      if f : bool then
        b ← ebary m e.1 e.2 v0 v1;
        if all_pos b || all_neg b then Some (Some (w, (SEdge e, (nth 2 b 0, nth 3 b 0)%Z))) else edge_find m v0 v1 ws
      else edge_find m v0 v1 ws
    end.

  (** src/tet.rs 2043-2049 [walkers_from_vertex], collected; at most [number of tets + 1] calls of [next]. *)
  Definition from_list m (v : N) : option (list walker) :=
    s ← walkers_from_vertex m v;
    fst <$> iter_take (wfv_next m) (length (im_keys (m_tets m)) + 1) s.

  Definition outer_edges (w : walker) : list walker := [to_perm w P3210; to_perm w P2130; to_perm w P1320].
  Definition other_edges (w : walker) : list walker := [to_perm w P0312; to_perm w P1320; to_perm w P2301].

  (** [res.or_else(|| edge_raw(..))]. *)
  Definition or_edges m v0 v1 (res : option (walker * crossing)) (ws : list walker) : option (option (walker * crossing)) :=
    match res with Some r => Some (Some r) | None => edge_find m v0 v1 ws end.

  (** src/tet/geo.rs 377-385: the first crossing. *)
  Definition way_first m (v0 v1 : N) : option (option (walker * crossing)) :=
    ws ← from_list m v0;
    '(first, stop) ← tri_raw m v0 v1 ((λ w, to_perm w P3210) <$> ws);
    if stop : bool then Some first else or_edges m v0 v1 first (ws ≫= outer_edges).

  (** [EdgeOrTri::as_tri], [as_edge], src/tet.rs 284-296. *)
  Definition as_tri (g : simplex) : option (N * N * N) := match g with STri t => Some t | SEdge _ => None end.
  Definition as_edge (g : simplex) : option (N * N) := match g with SEdge e => Some e | STri _ => None end.

  (** src/tet/geo.rs 388-424: the crossing after [inter], which was found at [w].  In the filters, a panic
      of [tri] or [edge] (there are none: C52) counts as different. *)
  Definition way_next m (v0 v1 : N) (prev : simplex) (w : walker) (inter : crossing) : option (option (walker * crossing)) :=
    match inter.1 with
    | STri _ =>
      w ← to_adj_ae m w;
      '(res, stop) ← tri_raw m v0 v1 [to_twin_edge w; to_opp_edge w; to_perm w P3210];
      if stop : bool then Some None else or_edges m v0 v1 res (other_edges w)
    | SEdge _ =>
      ring ← ring_list m w;
      let tris := ring ≫= λ w, [to_opp_edge w; to_perm w P3210] in
      let tris := List.filter (λ w, negb (bool_decide (sorted_3 <$> w_tri m w = as_tri prev))) tris in
      '(res, stop) ← tri_raw m v0 v1 tris;
      if stop : bool then Some None
      else
        let edges := ring ≫= other_edges in
        let edges := List.filter (λ w, negb (bool_decide (sorted_2 <$> w_pair m w = as_edge prev))) edges in
        or_edges m v0 v1 res edges
    end.

  (** src/tet/geo.rs 420-423. *)
  Definition sort_simplex (g : simplex) : simplex := match g with SEdge e => SEdge (sorted_2 e) | STri t => STri (sorted_3 t) end.

  (** src/tet/geo.rs 387, 425: [iter::successors(..).collect()]: the crossings after [inter], at most [n] of
      them, and whether these are all.  The loop of the code has no bound: it returns [l] just if some [n]
      gives [(l, true)], and goes on for ever if every [n] gives [false]. *)
  Fixpoint follow (n : nat) m (v0 v1 : N) (prev : simplex) (w : walker) (inter : crossing) : option (list crossing * bool) :=
    match n with
    | 0 => Some ([], false)
    | S n =>
      r ← way_next m v0 v1 prev w inter;
      match r with
      | None => Some ([], true)
      | Some (w', inter') =>
        '(l, all) ← follow n m v0 v1 (sort_simplex inter.1) w' inter';
        Some (inter' :: l, all)
      end
    end.

  (** src/tet/geo.rs 326-428 [edge_intersections_raw], the first [n] crossings. *)
  Definition edge_intersections_raw (n : nat) m (v0 v1 : N) : option (list crossing * bool) :=
    match n with
    | 0 => Some ([], false)
    | S n =>
      first ← way_first m v0 v1;
      match first with
      | None => Some ([], true)
      | Some (w, inter) =>
        '(l, all) ← follow n m v0 v1 (SEdge (invalid_id, invalid_id)) w inter;
        Some (inter :: l, all)
      end
    end.
End way.
