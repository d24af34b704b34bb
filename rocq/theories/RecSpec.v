(** What recovering edges and triangles may do to a mesh. *)
From stdpp Require Import base numbers list gmap option relations.
From Coq Require Import NArith ZArith.
From Verif Require Import IdMapModel WalkerModel WalkerSpec MeshModel MeshSpec FlipSpec MeshOps QualModel ProgModel ProgSpec RecModel.
Local Open Scope nat_scope.

Section spec.
  Context {V T : Type}.
  Implicit Types (m : mesh V T) (w : walker).

  (** The vertices of the element, in some order, are approved as a new edge or triangle. *)
  Definition approved (ea : mesh V T → N * N → bool) (ta : mesh V T → N * N * N → bool) m (g : simplex) : Prop :=
    match g with
    | SEdge (a, b) => ea m (a, b) = true ∨ ea m (b, a) = true
    | STri (a, b, c) => ∃ t, same_corners t (a, b, c) ∧ ta m t = true
    end.

  (** A list of elements to be removed that the search can look up: edges and triangles of the mesh,
      no edge starting at the ghost vertex. *)
  Definition listed m (l : list simplex) : Prop :=
    ∀ g, g ∈ l → present m g ∧ match g with SEdge e => e.1 ≠ GHOST | STri _ => True end.

  (** [m'] is [m] with the edge locked. *)
  Record edge_locked m m' (a b : N) : Prop := EdgeLocked {
    el_fit : fit m';
    el_edges x y : locked_edge m' x y ↔ locked_edge m x y ∨ sorted_2 (x, y) = sorted_2 (a, b);
    el_tris t : locked_tri m' t ↔ locked_tri m t;
    el_tets : m_tets m' = m_tets m;
    el_verts : m_verts m' = m_verts m }.

  (** [m'] is [m] with the triangle locked on both sides. *)
  Record tri_locked m m' (a b c : N) : Prop := TriLocked {
    tl_fit : fit m';
    tl_tris x y z : locked_tri m' (x, y, z) ↔ locked_tri m (x, y, z) ∨ (has_tri m x y z ∧ same_corners (x, y, z) (a, b, c));
    tl_edges x y : locked_edge m' x y ↔ locked_edge m x y;
    tl_tets id : (λ t, (t_vs t, t_opp t, t_edges t, t_val t)) <$> tet_get m' id = (λ t, (t_vs t, t_opp t, t_edges t, t_val t)) <$> tet_get m id;
    tl_verts : m_verts m' = m_verts m }.

  Context (G : geometry V T).

  (** The flips made while an edge, or a triangle, is being recovered. *)
  Definition edge_flip (e : N * N) : relation (mesh V T) := search_flip (may_edge G e) (may_tri G e) (g_ori G).
  Definition tri_flip (t : N * N * N) : relation (mesh V T) := search_flip (may_edge_t G t) may_any (g_ori G).

  (** One step of recovering anything: a flip, or locking an edge or a triangle of the mesh. *)
  Inductive rstep m m' : Prop :=
  | rs_edge_flip e : edge_flip e m m' → rstep m m'
  | rs_tri_flip t : tri_flip t m m' → rstep m m'
  | rs_edge_lock a b : joined m a b → edge_locked m m' a b → rstep m m'
  | rs_tri_lock a b c : has_tri m a b c → tri_locked m m' a b c → rstep m m'.

  (** Some flip wanted for recovering [e], or [t], cannot be done properly. *)
  Definition edge_clash (e : N * N) m : Prop := clash (may_edge G e) (may_tri G e) (g_ori G) m.
  Definition tri_clash (t : N * N * N) m : Prop := clash (may_edge_t G t) may_any (g_ori G) m.

  (** From [m] on, flips for recovering [e] (or [t]) do not make the element. *)
  Definition edge_avoids (e : N * N) m (g : simplex) : Prop :=
    ∀ m1, rtc (edge_flip e) m m1 → ¬ approved (may_edge G e) (may_tri G e) m1 g.
  Definition tri_avoids (t : N * N * N) m (g : simplex) : Prop :=
    ∀ m1, rtc (tri_flip t) m m1 → ¬ approved (may_edge_t G t) may_any m1 g.

  (** A vertex that the library calls solid: not the ghost vertex, and a corner of some tet. *)
  Definition solid m (v : N) : Prop := v ≠ GHOST ∧ attached m v.

  (** The geometry lists elements that are there, on every mesh that comes up from [m] on; what
      crosses a triangle is only asked for when its edges are there. *)
  Definition lists_well m : Prop := ∀ m1, rtc rstep m m1 →
    (∀ a b, a ≠ b → solid m1 a → solid m1 b → ∃ l, g_cross G m1 (a, b) = Some l ∧ listed m1 l) ∧
    (∀ a b c, NoDup [a; b; c] → solid m1 a → solid m1 b → solid m1 c → joined m1 a b → joined m1 b c → joined m1 c a → ¬ has_tri m1 a b c →
       ∃ l, g_tcross G m1 (a, b, c) = Some l ∧ listed m1 (SEdge <$> l)).

  (** From [m] on, a mesh can come up where a wanted flip cannot be done properly. *)
  Definition trouble m : Prop := ∃ m1, rtc rstep m m1 ∧ ((∃ e, edge_clash e m1) ∨ ∃ t, tri_clash t m1).

  (** From [m] on, a mesh can come up where nothing listed is in the way of an edge or a triangle any
      longer and yet it is not there: the geometry did not list enough, or the edge runs through a vertex. *)
  Definition gap m : Prop := ∃ m1 m2, rtc rstep m m1 ∧
    ((∃ e l, rtc (edge_flip e) m1 m2 ∧ g_cross G m1 e = Some l ∧ (∀ g, g ∈ l → edge_avoids e m1 g → ¬ present m2 g) ∧ ¬ joined m2 e.1 e.2) ∨
     (∃ a b c l, rtc (tri_flip (a, b, c)) m1 m2 ∧ g_tcross G m1 (a, b, c) = Some l ∧
        (∀ e, e ∈ l → tri_avoids (a, b, c) m1 (SEdge e) → ¬ present m2 (SEdge e)) ∧ ¬ has_tri m2 a b c)).

  (** [m'] comes from [m], and something listed is still in the way of the edge, or the triangle. *)
  Definition stuck_edge m (e : N * N) m' : Prop := ∃ m1 l g, rtc rstep m m1 ∧ g_cross G m1 e = Some l ∧ rtc (edge_flip e) m1 m' ∧ g ∈ l ∧ present m' g.
  Definition stuck_tri m (t : N * N * N) m' : Prop := ∃ m1 l g, rtc rstep m m1 ∧ g_tcross G m1 t = Some l ∧ rtc (tri_flip t) m1 m' ∧ g ∈ l ∧ present m' (SEdge g).

  (** The triangle is in the mesh and locked, on both sides and from whichever corner one looks. *)
  Definition secured m (a b c : N) : Prop := ∀ x y z, [x; y; z] ≡ₚ [a; b; c] → locked_tri m (x, y, z).

  (** The result of an operation on [m]: an exception named above, or a mesh made by flips and locks
      and an answer that satisfy [Q]. *)
  Definition outcome {R} m (r : option (mesh V T * R)) (Q : mesh V T → R → Prop) : Prop :=
    trouble m ∨ (r = None ∧ gap m) ∨ ∃ m' x, r = Some (m', x) ∧ rtc rstep m m' ∧ Q m' x.
End spec.
