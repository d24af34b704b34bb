(** Vocabulary for distances: points with integer coordinates, their planes and lines, and a whole
    number as tolerance.  Points of planes and lines have rational coordinates: they are given by
    whole weights with a positive sum, and everything is multiplied by that sum. *)
From stdpp Require Import base numbers list.
From Coq Require Import ZArith.
From Verif Require Import MeshModel GeoModel GeoSpec.
Local Open Scope Z_scope.

(** The point with weights [i j l] at [a b c], times [i + j + l]. *)
Definition weigh3 (i j l : Z) (a b c : pt) : pt := vadd (vadd (vscale i a) (vscale j b)) (vscale l c).
Definition weigh2 (i j : Z) (a b : pt) : pt := vadd (vscale i a) (vscale j b).

(** Every point of the plane through [a b c] is at least [tol] away from [p]. *)
Definition far_from_plane (tol : Z) (a b c p : pt) : Prop :=
  ∀ i j l, 0 < i + j + l → (tol * (i + j + l)) ^ 2 ≤ dist2 (vscale (i + j + l) p) (weigh3 i j l a b c).
(** Every point of the line [a b] is at least [tol] away from every point of the line [c d]. *)
Definition far_lines (tol : Z) (a b c d : pt) : Prop :=
  ∀ i j i' j', 0 < i + j → i' + j' = i + j → (tol * (i + j)) ^ 2 ≤ dist2 (weigh2 i j a b) (weigh2 i' j' c d).
(** The opposite elements of a tet: four pairs of a triangle and a vertex, three pairs of edges. *)
Definition opposites_far (tol : Z) (p0 p1 p2 p3 : pt) : Prop :=
  far_from_plane tol p1 p2 p3 p0 ∧ far_from_plane tol p0 p2 p3 p1 ∧ far_from_plane tol p0 p1 p3 p2 ∧ far_from_plane tol p0 p1 p2 p3 ∧
  far_lines tol p0 p1 p2 p3 ∧ far_lines tol p0 p2 p1 p3 ∧ far_lines tol p0 p3 p1 p2.

(** Some point of the plane through [a b c] is less than [tol] away from [p]. *)
Definition near_plane (tol : Z) (a b c p : pt) : Prop :=
  ∃ i j l, 0 < i + j + l ∧ dist2 (vscale (i + j + l) p) (weigh3 i j l a b c) < (tol * (i + j + l)) ^ 2.
(** Strictly on the same side of the plane through [a b c]. *)
Definition same_side (a b c p q : pt) : Prop := 0 < orient a b c p * orient a b c q.
(** Some point of the tet is less than [tol] away from [p]. *)
Definition near_tet (tol : Z) (p0 p1 p2 p3 p : pt) : Prop :=
  ∃ a0 a1 a2 a3, 0 ≤ a0 ∧ 0 ≤ a1 ∧ 0 ≤ a2 ∧ 0 ≤ a3 ∧ 0 < a0 + a1 + a2 + a3 ∧
    dist2 (vscale (a0 + a1 + a2 + a3) p) (vadd (weigh3 a0 a1 a2 p0 p1 p2) (vscale a3 p3)) < (tol * (a0 + a1 + a2 + a3)) ^ 2.
(** On one line. *)
Definition collinear (a b c : pt) : Prop := ∃ i j, (i ≠ 0 ∨ j ≠ 0) ∧ vscale i (vsub b a) = vscale j (vsub c a).
