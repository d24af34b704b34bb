(** What a list of the triangles and edges on the way from a vertex to another one should contain. *)
From stdpp Require Import base numbers list gmap option.
From Coq Require Import NArith ZArith QArith.
From Verif Require Import IdMapModel WalkerModel WalkerSpec MeshModel MeshSpec MeshOps GeoModel QualModel ProgSpec.
Local Open Scope nat_scope.

(** The vertices of a triangle or an edge. *)
Definition corners (g : simplex) : list N := match g with SEdge (a, b) => [a; b] | STri (a, b, c) => [a; b; c] end.
(** The same triangle or edge, perhaps written in another order. *)
Definition alike (g h : simplex) : Prop := corners g ≡ₚ corners h.

Section spec.
  Context {V T : Type}.
  Implicit Types (m : mesh V T) (g : simplex) (id : N).

  (** The tet has these corners, among others. *)
  Definition within m id (vs : list N) : Prop := ∃ t, tet_get m id = Some t ∧ ∀ v, v ∈ vs → v ∈ list4 (t_vs t).

  (** A place on the way: at the start, in a tet just entered through a triangle, or on an edge, with
      what was crossed just before it. *)
  Inductive place :=
  | From (v : N)
  | Past (id : N) (t : N * N * N)
  | On (e : N * N) (before : option simplex).

  (** What was crossed last. *)
  Definition latest (p : place) : option simplex :=
    match p with From _ => None | Past _ t => Some (STri t) | On e _ => Some (SEdge e) end.

  (** The triangles and edges around a place that may come next: those opposite to the start, the others of
      the tet entered, or, from an edge, the triangles that do not contain it and the other edges of
      the tets around it, but for what was crossed just before. *)
  Definition ahead m (p : place) id g : Prop :=
    within m id (corners g) ∧ NoDup (corners g) ∧
    match p with
    | From v => within m id [v] ∧ v ∉ corners g
    | Past k t => id = k ∧ ∃ v, v ∈ corners g ∧ v ∉ corners (STri t)
    | On e before => within m id (corners (SEdge e)) ∧ (∃ v, v ∈ corners (SEdge e) ∧ v ∉ corners g) ∧
        (∀ h, before = Some h → ¬ alike g h)
    end.

  (** The place that crossing [g] in the tet [id] leads to: past a triangle is its other tet. *)
  Definition leads m (p : place) id g (p' : place) : Prop :=
    match g with
    | STri t => ∃ k, p' = Past k t ∧ k ≠ id ∧ within m k (corners g)
    | SEdge e => p' = On e (latest p)
    end.

  (** The tests: [hit g x] says that [g] is crossed, with coordinates [x], and [back g] that it is crossed with
      negative ones. *)
  Context (hit : simplex → Z * Z → Prop) (back : simplex → Prop).
  Definition crossed g : Prop := ∃ x, hit g x.

  (** The goal is a corner of a triangle that may come next. *)
  Definition arrived m (v1 : N) (p : place) : Prop := ∃ id t, ahead m p id (STri t) ∧ v1 ∈ corners (STri t).

  (** [l] is a way from [p] to [v1]; if [all] does not hold it may go on.  Each step crosses something
      that may come next, an edge only if no triangle can be crossed.  The way ends once it has arrived, or
      when nothing can be crossed.  (At the start, and only there, a triangle crossed with negative coordinates
      comes before having arrived.) *)
  Inductive way m (v1 : N) : place → list (simplex * (Z * Z)) → bool → Prop :=
  | way_cut p : way m v1 p [] false
  | way_arrived p : arrived m v1 p → way m v1 p [] true
  | way_lost p : (∀ id g, ahead m p id g → ¬ crossed g) → way m v1 p [] true
  | way_step p id g x p' l all :
      ahead m p id g → hit g x → v1 ∉ corners g →
      (∀ e, g = SEdge e → ∀ id' t, ahead m p id' (STri t) → ¬ crossed (STri t)) →
      (arrived m v1 p → (∃ v, p = From v) ∧ (∃ t, g = STri t) ∧ back g) →
      leads m p id g p' → way m v1 p' l all → way m v1 p ((g, x) :: l) all.
End spec.

Section tests.
  Context {V T : Type}.
  Implicit Types (m : mesh V T) (g : simplex).
  Context (tbary : mesh V T → N → N → N → N → N → option (list Z)).
  Context (ebary : mesh V T → N → N → N → N → option (list Z)).
  Context (flat : mesh V T → N → N → N → N → option bool).

  (** The segment from [v0] to [v1] crosses [g]: the coordinates are all positive or all negative, and an edge is
      in one plane with the segment.  The last two coordinates are those along the segment. *)
  Definition hits m (v0 v1 : N) g (x : Z * Z) : Prop :=
    match g with
    | STri (a, b, c) => ∃ bs, tbary m a b c v0 v1 = Some bs ∧ (Forall (λ z, 0 < z)%Z bs ∨ Forall (λ z, z < 0)%Z bs) ∧ x = (nth 3 bs 0, nth 4 bs 0)%Z
    | SEdge (a, b) => flat m a b v0 v1 = Some true ∧
        ∃ bs, ebary m a b v0 v1 = Some bs ∧ (Forall (λ z, 0 < z)%Z bs ∨ Forall (λ z, z < 0)%Z bs) ∧ x = (nth 2 bs 0, nth 3 bs 0)%Z
    end.
  Definition hits_back m (v0 v1 : N) g : Prop :=
    match g with STri (a, b, c) => ∃ bs, tbary m a b c v0 v1 = Some bs ∧ Forall (λ z, z < 0)%Z bs | SEdge _ => False end.

  (** The tests do not panic on the triangles and edges of the mesh, and do not depend on how these are
      written. *)
  Record even_handed m (v0 v1 : N) : Prop := EvenHanded {
    eh_tri a b c : has_tri m a b c → is_Some (tbary m a b c v0 v1);
    eh_flat a b : joined m a b → is_Some (flat m a b v0 v1);
    eh_edge a b : joined m a b → flat m a b v0 v1 = Some true → is_Some (ebary m a b v0 v1);
    eh_same g h : present m g → alike g h → crossed (hits m v0 v1) g → crossed (hits m v0 v1) h }.
End tests.

Section place.
  Context {V T : Type}.
  Implicit Types (m : mesh V T).

  (** The vertex [v] lies in the tet or on its border: putting it in the place of one of the four corners keeps the
      orientation or makes the tet flat. *)
  Definition in_tet m (id v : N) : Prop :=
    ∃ a b c d, (∃ t, tet_get m id = Some t ∧ list4 (t_vs t) ≡ₚ [a; b; c; d]) ∧
    ∃ D za zb zc zd, (orient_3d m a b c d = Some D ∧ orient_3d m v b c d = Some za ∧ orient_3d m a v c d = Some zb ∧ orient_3d m a b v d = Some zc ∧ orient_3d m a b c v = Some zd ∧
      0 < D ∧ 0 ≤ za ∧ 0 ≤ zb ∧ 0 ≤ zc ∧ 0 ≤ zd)%Z.

  (** All tets are positively oriented (as [assert_integrity] demands, C49). *)
  Definition upright m : Prop := ∀ id t, tet_get m id = Some t → ∃ z, (orient_3d m (q0 (t_vs t)) (q1 (t_vs t)) (q2 (t_vs t)) (q3 (t_vs t)) = Some z ∧ 0 < z)%Z.

  (** The segment from [v0] to [v1] is in general position: it lies in a plane with no edge but those at its
      ends, and [v1] lies in no tet but those it is a corner of. *)
  Definition generic m (v0 v1 : N) : Prop :=
    (∀ a b, joined m a b → a ∉ [v0; v1] → b ∉ [v0; v1] → orient_3d m a b v0 v1 ≠ Some 0%Z) ∧
    (∀ id, ¬ within m id [v1] → ¬ in_tet m id v1).

  (** The place of a crossing on the segment, between 0 at [v0] and 1 at [v1]. *)
  Definition along (x : Z * Z) : Q := Qmake (Z.abs x.2) (Z.to_pos (Z.abs (x.1 + x.2))).
End place.
