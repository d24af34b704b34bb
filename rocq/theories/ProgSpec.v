(** What the search for a removable edge or triangle may do to a mesh. *)
From stdpp Require Import base numbers list gmap option relations.
From Coq Require Import NArith ZArith.
From Verif Require Import IdMapModel WalkerModel WalkerSpec MeshModel MeshSpec FlipSpec QualModel.
Local Open Scope nat_scope.

Section spec.
  Context {V T : Type}.
  Implicit Types (m : mesh V T) (w : walker).

  (** The edge or triangle is in the mesh. *)
  Definition present m (g : simplex) : Prop :=
    match g with SEdge (a, b) => joined m a b | STri (a, b, c) => has_tri m a b c end.

  (** Its vertices are listed in increasing order. *)
  Definition in_order (g : simplex) : Prop :=
    match g with SEdge (a, b) => (a < b)%N | STri (a, b, c) => (a < b)%N ∧ (b < c)%N end.

  (** No two tets have the same four vertices. *)
  Definition thick m : Prop := ∀ id id' t t', tet_get m id = Some t → tet_get m id' = Some t' →
    (∀ x, x ∈ list4 (t_vs t) ↔ x ∈ list4 (t_vs t')) → id = id'.

  (** What the search needs of a mesh: consistent, tracking its triangles, without doubled tets. *)
  Definition fit m : Prop := mesh_ok m ∧ m_track m = true ∧ thick m.

  (** The caller's predicates for new edges and triangles, and the orientation test. *)
  Context (ea : mesh V T → N * N → bool) (ta : mesh V T → N * N * N → bool) (ori : mesh V T → N → N → N → N → Z).

  (** The 2-to-3 flip of the unlocked triangle [a b c] with opposite vertices [d] and [e] is wanted:
      the line through [e] and [d] passes inside the triangle, and the new edge and triangles are
      approved. *)
  Definition wants23 m w (a b c d e : N) : Prop :=
    valid m w ∧ w_verts m w = Some (A4 a b c d) ∧
    (∃ other, to_adj m w = Some other ∧ w_fourth m other = Some e) ∧
    w_locked m w = Some false ∧
    (0 < ori m a b e d)%Z ∧ (0 < ori m b c e d)%Z ∧ (0 < ori m c a e d)%Z ∧
    ea m (d, e) = true ∧ ta m (a, d, e) = true ∧ ta m (b, d, e) = true ∧ ta m (c, d, e) = true.

  (** The 3-to-2 flip of the unlocked edge [p q] with the tets [p q x y], [p q y z], [p q z x] and
      unlocked triangles is wanted: the triangle [x y z] separates [p] from [q], and is approved. *)
  Definition wants32 m w (p q x y z : N) : Prop :=
    valid m w ∧ w_verts m w = Some (A4 p q x y) ∧
    (∃ r1 r2, ring_next m w = Some r1 ∧ w_fourth m r1 = Some z ∧ ring_next m r1 = Some r2 ∧ ring_next m r2 = Some w ∧
       w_locked m w = Some false ∧ w_locked m r1 = Some false ∧ w_locked m r2 = Some false) ∧
    ¬ locked_edge m p q ∧
    (0 < ori m x y p z)%Z ∧ (0 < ori m x y z q)%Z ∧ ta m (x, y, z) = true.

  (** The 4-to-4 flip of the unlocked edge [p q] with the tets [p q x y], [p q y z], [p q z u],
      [p q u x] and unlocked triangles is wanted: the four new tets around the new edge [z x] are
      positive, and the new edge and triangles are approved. *)
  Definition wants44 m w (p q x y z u : N) : Prop :=
    valid m w ∧ w_verts m w = Some (A4 p q x y) ∧
    (∃ r1 r2 r3, ring_next m w = Some r1 ∧ ring_next m r1 = Some r2 ∧ ring_next m r2 = Some r3 ∧ ring_next m r3 = Some w ∧
       r2 ≠ w ∧ w_fourth m r1 = Some z ∧ w_fourth m r2 = Some u ∧
       w_locked m w = Some false ∧ w_locked m r1 = Some false ∧ w_locked m r2 = Some false ∧ w_locked m r3 = Some false) ∧
    ¬ locked_edge m p q ∧
    (0 < ori m z q x y)%Z ∧ (0 < ori m z u x q)%Z ∧ (0 < ori m z p x u)%Z ∧ (0 < ori m z y x p)%Z ∧
    ea m (z, x) = true ∧ ta m (z, u, x) = true ∧ ta m (z, p, x) = true ∧ ta m (z, y, x) = true ∧ ta m (z, q, x) = true.

  (** One flip of the search: wanted, with a new edge or triangle that is not in the mesh yet, and
      with ids for the new elements. *)
  Inductive search_flip m m' : Prop :=
  | sf23 w a b c d e ws : wants23 m w a b c d e → ¬ joined m d e → id_room m 1 1 → flip23_unchecked m w = Some (m', ws) → search_flip m m'
  | sf32 w p q x y z ws : wants32 m w p q x y z → ¬ has_tri m x y z → flip32_unchecked m w = Some (m', ws) → search_flip m m'
  | sf44 w p q x y z u ws : wants44 m w p q x y z u → ¬ joined m x z → id_room m 1 1 → flip44_unchecked m w = Some (m', ws) → search_flip m m'.

  (** A wanted flip that cannot be done properly: its new edge or triangle is already in the mesh,
      or the ids have run out.  Geometry rules the first case out in a mesh without overlapping
      tets; the search does not test for it. *)
  Inductive clash m : Prop :=
  | clash23 w a b c d e : wants23 m w a b c d e → (joined m d e ∨ ¬ id_room m 1 1) → clash m
  | clash32 w p q x y z : wants32 m w p q x y z → has_tri m x y z → clash m
  | clash44 w p q x y z u : wants44 m w p q x y z u → (joined m x z ∨ ¬ id_room m 1 1) → clash m.

  (** The result of the search against the list of goals: nothing, and every goal is still in the
      mesh; or the index of a goal that is gone, while those before it are still in the mesh. *)
  Definition reports m (goals : list simplex) (r : option nat) : Prop :=
    match r with
    | None => ∀ g, g ∈ goals → present m g
    | Some i => (∃ g, goals !! i = Some g ∧ ¬ present m g) ∧
        ∀ j g, j < i → goals !! j = Some g → present m g
    end.
End spec.
