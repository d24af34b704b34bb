(** Model of the geometric predicates of src/tet/geo.rs and src/tet.rs.

    Coordinates are exact integers (every finite f64 input is an integer after a common scaling by
    a power of two, and all predicates here are homogeneous).  [robust_geo::orient_3d] and
    [robust_geo::in_sphere] are documented to return a value with the exact sign; they are modelled
    by the exact determinants.  The sign convention is that of [tet_volume_x6] (src/tet.rs 1950). *)
From stdpp Require Import base numbers list gmap option.
From Coq Require Import NArith ZArith.
From Verif Require Import IdMapModel WalkerModel MeshModel.
Local Open Scope Z_scope.

Definition vsub (a b : pt) : pt := Pt (px a - px b) (py a - py b) (pz a - pz b).
Definition vadd (a b : pt) : pt := Pt (px a + px b) (py a + py b) (pz a + pz b).
Definition vcross (a b : pt) : pt :=
  Pt (py a * pz b - pz a * py b) (pz a * px b - px a * pz b) (px a * py b - py a * px b).
Definition vdot (a b : pt) : Z := px a * px b + py a * py b + pz a * pz b.
Definition norm2 (a : pt) : Z := vdot a a.

(** [robust_geo::orient_3d]. *)
Definition orient (p0 p1 p2 p3 : pt) : Z := - vdot (vcross (vsub p1 p0) (vsub p2 p0)) (vsub p3 p0).

(** [robust_geo::in_sphere]: the 4x4 determinant with the rows [x y z |.|^2] of the differences to
    the query point, expanded along its last column. *)
Definition insphere (p0 p1 p2 p3 p4 : pt) : Z :=
  let a := vsub p0 p4 in let b := vsub p1 p4 in let c := vsub p2 p4 in let d := vsub p3 p4 in
  let det3 u v w := vdot (vcross u v) w in
  - norm2 a * det3 b c d + norm2 b * det3 a c d - norm2 c * det3 a b d + norm2 d * det3 a b c.

Section geo.
  Context {V T : Type}.
  Implicit Types (m : mesh V T).

  (** src/tet.rs 2160-2166 [idx_ori]; indexing a missing vertex panics. *)
  Definition idx_ori m (v : N) : option pt :=
    if N.eqb v GHOST then Some (m_center m) else v_pos <$> im_get (m_verts m) v.

  Definition has_ghost (vs : list N) : bool := existsb (N.eqb GHOST) vs.

  (** src/tet/geo.rs 75-81 [orient_3d]. *)
  Definition orient_3d m (v0 v1 v2 v3 : N) : option Z :=
    p0 ← idx_ori m v0; p1 ← idx_ori m v1; p2 ← idx_ori m v2; p3 ← idx_ori m v3;
    Some ((if has_ghost [v0; v1; v2; v3] then -1 else 1) * orient p0 p1 p2 p3).

  (** src/tet/geo.rs 86-89 [orient_3d_sim], with the simulation-of-simplicity test of the crate
      [simplicity] (which may look at points and ids) as a parameter. *)
  Definition orient_3d_sim (sim : N * pt → N * pt → N * pt → N * pt → bool) m (v0 v1 v2 v3 : N) : option bool :=
    p0 ← idx_ori m v0; p1 ← idx_ori m v1; p2 ← idx_ori m v2; p3 ← idx_ori m v3;
    Some (xorb (has_ghost [v0; v1; v2; v3]) (sim (v0, p0) (v1, p1) (v2, p2) (v3, p3))).

  (** src/tet/geo.rs 145-169 [in_sphere]. *)
  Definition in_sphere m (v0 v1 v2 v3 v4 : N) : option Z :=
    p0 ← idx_ori m v0; p1 ← idx_ori m v1; p2 ← idx_ori m v2; p3 ← idx_ori m v3;
    p4 ← v_pos <$> im_get (m_verts m) v4;
    Some (if N.eqb v0 GHOST then orient p3 p2 p1 p4
          else if N.eqb v1 GHOST then orient p2 p3 p0 p4
          else if N.eqb v2 GHOST then orient p1 p0 p3 p4
          else if N.eqb v3 GHOST then orient p0 p1 p2 p4
          else insphere p0 p1 p2 p3 p4).

  (** src/tet/geo.rs 245-258 [tri_edge_bary]. *)
  Definition tri_edge_bary m (v0 v1 v2 v3 v4 : N) : option (list Z) :=
    b0 ← orient_3d m v1 v2 v3 v4;
    b1 ← orient_3d m v2 v0 v3 v4;
    b2 ← orient_3d m v0 v1 v3 v4;
    b3 ← orient_3d m v0 v1 v2 v4;
    b4 ← orient_3d m v2 v1 v0 v3;
    Some [b0; b1; b2; b3; b4].

  (** src/tet/geo.rs 262-272 [tri_intersects_edge]. *)
  Definition tri_intersects_edge m (v0 v1 v2 v3 v4 : N) : option bool :=
    b ← tri_edge_bary m v0 v1 v2 v3 v4;
    Some (forallb (λ c, 0 <? c) b || forallb (λ c, c <? 0) b).

  (** src/tet/geo.rs 226-240 [tri_intersects_edge_sim]. *)
  Definition tri_intersects_edge_sim sim m (v0 v1 v2 v3 v4 : N) : option bool :=
    positive ← orient_3d_sim sim m v2 v1 v0 v3;
    a ← orient_3d_sim sim m v0 v1 v2 v4;
    b ← orient_3d_sim sim m v0 v1 v3 v4;
    c ← orient_3d_sim sim m v1 v2 v3 v4;
    d ← orient_3d_sim sim m v2 v0 v3 v4;
    Some (Bool.eqb a positive && Bool.eqb b positive && Bool.eqb c positive && Bool.eqb d positive).

  (** src/tet/geo.rs 464-476 [tet_intersects_vertex]; short circuit evaluation cannot hide a
      panic here because all four calls look up the same five vertices. *)
  Definition tet_intersects_vertex sim m (v0 v1 v2 v3 v4 : N) : option bool :=
    a ← orient_3d_sim sim m v0 v1 v2 v4;
    b ← orient_3d_sim sim m v3 v2 v1 v4;
    c ← orient_3d_sim sim m v2 v3 v0 v4;
    d ← orient_3d_sim sim m v1 v0 v3 v4;
    Some (a && b && c && d).

  (** src/tet.rs 1950-1968 [tet_volume_x6]: outer option: panic; inner: the result. *)
  Definition tet_volume_x6 m (id : N) : option (option Z) :=
    t ← tet_get m id;
    let vs := t_vs t in
    if has_ghost (list4 vs) then Some None
    else
      p0 ← v_pos <$> im_get (m_verts m) (q0 vs); p1 ← v_pos <$> im_get (m_verts m) (q1 vs);
      p2 ← v_pos <$> im_get (m_verts m) (q2 vs); p3 ← v_pos <$> im_get (m_verts m) (q3 vs);
      Some (Some (- vdot (vcross (vsub p1 p0) (vsub p2 p0)) (vsub p3 p0))).

  (** src/tet.rs 1976-1990 [tet_centroid], times four. *)
  Definition tet_centroid_x4 m (id : N) : option (option pt) :=
    t ← tet_get m id;
    let vs := t_vs t in
    if has_ghost (list4 vs) then Some None
    else
      p0 ← v_pos <$> im_get (m_verts m) (q0 vs); p1 ← v_pos <$> im_get (m_verts m) (q1 vs);
      p2 ← v_pos <$> im_get (m_verts m) (q2 vs); p3 ← v_pos <$> im_get (m_verts m) (q3 vs);
      Some (Some (vadd (vadd (vadd p0 p1) p2) p3)).
End geo.
