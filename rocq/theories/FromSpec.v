(** When a sequence of insertions keeps a mesh well formed. *)
From stdpp Require Import base numbers list gmap option relations.
From Coq Require Import NArith ZArith.
From Verif Require Import IdMapModel WalkerModel WalkerSpec MeshModel MeshOps MeshSpec HistSpec GeoModel IterModel CavSpec InsSpec DelModel DelSpec.
Local Open Scope nat_scope.

Section spec.
  Context {V T : Type}.
  Implicit Types (m : mesh V T).

  (** Storing the vertex [v] at [p] and starting from any tet whose circumsphere contains it, the
      boundary of the set of tets reached through tets in conflict is a connected surface, and there
      are ids left to fill it. *)
  Definition sound_cavities m (v : N) (p : pt) (x : V) : Prop := ∀ m1 t0 E B,
    placed m v p x m1 → spoiled m1 v t0 → region m1 E → boundary_of m1 E B →
    (∀ t, t ∈ E ↔ rtc (λ a b, neighbours m1 a b ∧ in_conflict (sphere_of m1 v) m1 b) t0 t) →
    surface m1 E ∧ B ≠ [] ∧ roomy m1 (N.of_nat (length B)) (N.of_nat (3 * length B)).
End spec.
