(** What a region of tets and its boundary are, in terms of the walker API. *)
From stdpp Require Import base numbers list gmap option relations.
From Coq Require Import NArith ZArith.
From Verif Require Import IdMapModel WalkerModel WalkerSpec MeshModel MeshOps MeshSpec.
Local Open Scope nat_scope.

(** Which of the four triangles of which tet a walker is on. *)
Definition side (w : walker) : N * nat := (w_tet w, w_edge w mod 4).

Section spec.
  Context {V T : Type}.
  Implicit Types (m : mesh V T) (w : walker).

  (** No search is under way: none of the flags used by the search is set. *)
  Definition no_cavity_flags m : Prop := ∀ id t, tet_get m id = Some t →
    f_imm (t_flags t) = none4 ∧ f_limit (t_flags t) = none4 ∧ f_notenc (t_flags t) = false.

  (** [E] lists existing tets, each once. *)
  Definition region m (E : list N) : Prop := NoDup E ∧ ∀ id, id ∈ E → is_Some (tet_get m id).

  (** The walker's tet is in [E] and the tet across its triangle is not. *)
  Definition leaves m (E : list N) w : Prop := w_tet w ∈ E ∧ ∃ x, to_adj m w = Some x ∧ w_tet x ∉ E.

  (** [B] has one walker on each triangle that separates [E] from the rest, on the side of [E]. *)
  Definition boundary_of m (E : list N) (B : list walker) : Prop :=
    Forall (valid m) B ∧ NoDup (side <$> B) ∧
    ∀ w, valid m w → (side w ∈ side <$> B ↔ leaves m E w).

  (** Tets [a] and [b] share a triangle. *)
  Definition neighbours m (a b : N) : Prop :=
    ∃ w x, valid m w ∧ w_tet w = a ∧ to_adj m w = Some x ∧ w_tet x = b.

  Context (ins : arr4 N → Z) (ori : N * N * N → Z).

  (** The tet is in conflict with the new vertex: the vertex is inside its circumsphere, or on it;
      if it is on the "sphere" of a ghost tet (coplanar with its solid triangle), the tet on the
      solid side of that triangle decides. *)
  Definition in_conflict m (id : N) : Prop := ∃ w vs, valid m w ∧ w_tet w = id ∧ w_verts m w = Some vs ∧
    ((0 < ins vs)%Z ∨
     (ins vs = 0%Z ∧ GHOST ∉ list4 vs) ∨
     (ins vs = 0%Z ∧ ∃ u x vs', valid m u ∧ w_tet u = id ∧ w_fourth m u = Some GHOST ∧ to_adj_ae m u = Some x ∧
        w_verts m x = Some vs' ∧ (0 <= ins vs')%Z)).

  (** The in-sphere test does not depend on how a tet is looked at. *)
  Definition steady m : Prop := ∀ w w' vs vs', valid m w → valid m w' → w_tet w = w_tet w' →
    w_verts m w = Some vs → w_verts m w' = Some vs' → Z.sgn (ins vs) = Z.sgn (ins vs').

  (** The orientation test does not depend on where a triangle starts. *)
  Definition turning : Prop := ∀ a b c, (0 < ori (a, b, c) → 0 < ori (b, c, a))%Z.

  (** The vertex is strictly on the inner side of every boundary triangle of [K], and no tet of
      [exclude] has such a triangle. *)
  Definition star_shaped m (exclude K : list N) : Prop := ∀ w t, valid m w → leaves m K w → w_tri m w = Some t →
    w_tet w ∉ exclude ∧ (0 < ori t)%Z.

  (** All tets at the walker's edge are in [E]. *)
  Definition edge_inside m (E : list N) w : Prop := ∀ u p, valid m u → w_pair m w = Some p → w_pair m u = Some p → w_tet u ∈ E.
  (** The tets on both sides of the walker's triangle are in [E]. *)
  Definition tri_inside m (E : list N) w : Prop := w_tet w ∈ E ∧ ∃ x, to_adj m w = Some x ∧ w_tet x ∈ E.
End spec.
