(** What the point nearest to the middle of a segment and the time a vertex may travel should be. *)
From stdpp Require Import base numbers list gmap option.
From Coq Require Import NArith ZArith QArith.
From Verif Require Import IdMapModel WalkerModel WalkerSpec MeshModel MeshSpec MeshOps FlipSpec GeoModel GeoSpec QualModel ProgSpec WaySpec.
Local Open Scope Z_scope.

(** [P / k] lies strictly between [p0] and [p1], and strictly inside the triangle or edge with these corners. *)
Definition between (P : pt) (k : Z) (p0 p1 : pt) : Prop := ∃ b0 b1, 0 < b0 ∧ 0 < b1 ∧ vscale (b0 + b1) P = vscale k (vadd (vscale b0 p0) (vscale b1 p1)).
Definition inside (P : pt) (k : Z) (qs : list pt) : Prop :=
  match qs with
  | [q0; q1] => between P k q0 q1
  | [q0; q1; q2] => ∃ a0 a1 a2, 0 < a0 ∧ 0 < a1 ∧ 0 < a2 ∧
      vscale (a0 + a1 + a2) P = vscale k (vadd (vadd (vscale a0 q0) (vscale a1 q1)) (vscale a2 q2))
  | _ => False
  end.

(** The point [P / k] is at most as far from the middle of the segment [p0 p1] as [Q / j] (twice and squared, times the squares
    of [k] and [j]). *)
Definition off_middle2 (P : pt) (k : Z) (p0 p1 : pt) : Z := norm2 (vsub (vscale 2 P) (vscale k (vadd p0 p1))).
Definition no_farther (P : pt) (k : Z) (Q : pt) (j : Z) (p0 p1 : pt) : Prop := off_middle2 P k p0 p1 * (j * j) ≤ off_middle2 Q j p0 p1 * (k * k).

(** On the way from [c] to [d], at the time [s] (0 at the start, 1 at the end), the moving point is in the triangle
    [p0 p1 p2], its border included, and passes through its plane rather than along it. *)
Definition passes_at (p0 p1 p2 c d : pt) (s : Q) : Prop :=
  orient p0 p1 p2 c ≠ orient p0 p1 p2 d ∧
  ∃ x0 x1 x2 y z, 0 ≤ x0 ∧ 0 ≤ x1 ∧ 0 ≤ x2 ∧ 0 ≤ y ∧ 0 ≤ z ∧ 0 < y + z ∧ x0 + x1 + x2 = y + z ∧
    vadd (vadd (vscale x0 p0) (vscale x1 p1)) (vscale x2 p2) = vadd (vscale y c) (vscale z d) ∧
    (s * inject_Z (y + z) == inject_Z z)%Q.

Section spec.
  Context {V T : Type}.
  Implicit Types (m : mesh V T).

  (** The corners of the tet [id] are [v] and [a], [b], [c], in any order. *)
  Definition opposite m (id v a b c : N) : Prop := ∃ t, tet_get m id = Some t ∧ list4 (t_vs t) ≡ₚ [v; a; b; c].

  (** No tet around the vertex is a ghost tet. *)
  Definition interior m (v : N) : Prop := ∀ id, within m id [v] → ¬ within m id [GHOST].

  (** At the time [s] a vertex that moves from the place of [c] to that of [d] is on the surface of the ball
      around [v]. *)
  Definition on_surface m (v c d : N) (s : Q) : Prop :=
    ∃ id a0 a1 a2 p0 p1 p2 pc pd, opposite m id v a0 a1 a2 ∧
      idx_ori m a0 = Some p0 ∧ idx_ori m a1 = Some p1 ∧ idx_ori m a2 = Some p2 ∧ idx_ori m c = Some pc ∧ idx_ori m d = Some pd ∧
      passes_at p0 p1 p2 pc pd s.

  (** From the point [(y c + z d) / (y + z)] the whole surface of the ball around [v] is seen: if [v] were there, all
      tets around it would still be positively oriented. *)
  Definition sees_surface m (v c d : N) (y z : Z) : Prop :=
    ∀ w a0 a1 a2 p0 p1 p2 pc pd, valid m w → w_verts m w = Some (A4 v a0 a1 a2) →
      idx_ori m a0 = Some p0 → idx_ori m a1 = Some p1 → idx_ori m a2 = Some p2 → idx_ori m c = Some pc → idx_ori m d = Some pd →
      0 < orient (vadd (vscale y pc) (vscale z pd)) (vscale (y + z) p0) (vscale (y + z) p1) (vscale (y + z) p2).
End spec.
