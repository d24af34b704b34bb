(** Vocabulary for the geometric properties: points, spheres, convex combinations, volumes. *)
From stdpp Require Import base numbers list gmap option.
From Coq Require Import NArith ZArith.
From Verif Require Import IdMapModel WalkerModel MeshModel GeoModel MeshOps.
Local Open Scope Z_scope.

(** Scaling and translating points. *)
Definition vscale (k : Z) (p : pt) : pt := Pt (k * px p) (k * py p) (k * pz p).

(** The sphere with centre [c / k] and squared radius [r2 / k^2], [k > 0]: which points (with integer
    coordinates) are on it and strictly inside it. *)
Definition dist2 (p q : pt) : Z :=
  (px p - px q) * (px p - px q) + (py p - py q) * (py p - py q) + (pz p - pz q) * (pz p - pz q).
Definition on_sphere (k : Z) (c : pt) (r2 : Z) (p : pt) : Prop := dist2 (vscale k p) c = r2.
Definition in_ball (k : Z) (c : pt) (r2 : Z) (p : pt) : Prop := dist2 (vscale k p) c < r2.

(** Some point is both strictly inside the triangle [p0 p1 p2] and strictly inside the segment
    [p3 p4]; written with the common denominator cleared. *)
Definition open_tri_meets_open_segment (p0 p1 p2 p3 p4 : pt) : Prop :=
  ∃ a0 a1 a2 b3 b4, 0 < a0 ∧ 0 < a1 ∧ 0 < a2 ∧ 0 < b3 ∧ 0 < b4 ∧ a0 + a1 + a2 = b3 + b4 ∧
    vadd (vadd (vscale a0 p0) (vscale a1 p1)) (vscale a2 p2) = vadd (vscale b3 p3) (vscale b4 p4).

(** The same for the ray that starts at [p3] and runs straight away from [c]: its points are
    [p3 + t (p3 - c)]. *)
Definition open_tri_meets_open_ray (p0 p1 p2 p3 c : pt) : Prop :=
  ∃ a0 a1 a2 k t, 0 < a0 ∧ 0 < a1 ∧ 0 < a2 ∧ 0 < k ∧ 0 < t ∧ a0 + a1 + a2 = k ∧
    vadd (vadd (vscale a0 p0) (vscale a1 p1)) (vscale a2 p2) = vadd (vscale k p3) (vscale t (vsub p3 c)).

(** The plane through three points separates two points strictly. *)
Definition separates (p0 p1 p2 p q : pt) : Prop := orient p0 p1 p2 p * orient p0 p1 p2 q < 0.

(** The point [p] is in the (closed, open) tetrahedron [p0 p1 p2 p3]. *)
Definition in_closed_tet (p0 p1 p2 p3 p : pt) : Prop :=
  ∃ a0 a1 a2 a3, 0 ≤ a0 ∧ 0 ≤ a1 ∧ 0 ≤ a2 ∧ 0 ≤ a3 ∧ 0 < a0 + a1 + a2 + a3 ∧
    vadd (vadd (vadd (vscale a0 p0) (vscale a1 p1)) (vscale a2 p2)) (vscale a3 p3) = vscale (a0 + a1 + a2 + a3) p.
Definition in_open_tet (p0 p1 p2 p3 p : pt) : Prop :=
  ∃ a0 a1 a2 a3, 0 < a0 ∧ 0 < a1 ∧ 0 < a2 ∧ 0 < a3 ∧
    vadd (vadd (vadd (vscale a0 p0) (vscale a1 p1)) (vscale a2 p2)) (vscale a3 p3) = vscale (a0 + a1 + a2 + a3) p.

(** A tie-breaking orientation test that never contradicts the exact one. *)
Definition sim_exact (sim : N * pt → N * pt → N * pt → N * pt → bool) : Prop :=
  ∀ v0 v1 v2 v3 p0 p1 p2 p3,
    (0 < orient p0 p1 p2 p3 → sim (v0, p0) (v1, p1) (v2, p2) (v3, p3) = true) ∧
    (orient p0 p1 p2 p3 < 0 → sim (v0, p0) (v1, p1) (v2, p2) (v3, p3) = false).

Section spec.
  Context {V T : Type}.
  Implicit Types (m : mesh V T).

  Definition sum_over (f : N → Z) (l : list N) : Z := foldr (λ k s, f k + s) 0 l.

  (** Six times the volume of the solid part of the mesh, as reported tet by tet. *)
  Definition solid_volume_x6 m : Z :=
    sum_over (λ id, match tet_volume_x6 m id with Some (Some v) => v | _ => 0 end) (im_keys (m_tets m)).

  (** The sum of the orientation values of the ghost tets: six times the volume between the outer
      triangles and the centre point. *)
  Definition hull_volume_x6 m : Z :=
    sum_over (λ id, match tet_get m id with
                    | Some t => if has_ghost (list4 (t_vs t))
                                then default 0 (orient_3d m (q0 (t_vs t)) (q1 (t_vs t)) (q2 (t_vs t)) (q3 (t_vs t)))
                                else 0
                    | None => 0 end) (im_keys (m_tets m)).

  (** The ghost tets of two meshes are the same. *)
  Definition same_ghost_tets m m' : Prop :=
    ∀ id vs, GHOST ∈ list4 vs → (t_vs <$> tet_get m id = Some vs ↔ t_vs <$> tet_get m' id = Some vs).
End spec.
