(** What inserting a vertex into a Delaunay tetrahedralization should do, in terms of the walker API
    and the in-sphere test. *)
From stdpp Require Import base numbers list gmap option relations.
From Coq Require Import NArith ZArith.
From Verif Require Import IdMapModel WalkerModel WalkerSpec MeshModel MeshOps MeshSpec GeoModel IterModel CavSpec InsSpec.
Local Open Scope nat_scope.

Section spec.
  Context {V T : Type}.
  Implicit Types (m : mesh V T) (w : walker).

  (** A well-formed mesh with no operation and no traversal under way. *)
  Record ready m : Prop := Ready {
    rd_ok : mesh_ok m;
    rd_rest : at_rest m;
    rd_tets id t : tet_get m id = Some t → f_wfv (t_flags t) = false;
    rd_verts v f : vertex_flags m v = Some f → vf_targets f = false }.

  (** The vertex [v] is strictly inside the circumsphere of the tet (for a ghost tet, strictly on
      the outer side of its solid triangle), whichever way one looks at the tet. *)
  Definition spoiled m (v id : N) : Prop := is_Some (tet_get m id) ∧
    ∀ w a b c d, valid m w → w_tet w = id → w_verts m w = Some (A4 a b c d) → ∃ s, in_sphere m a b c d v = Some s ∧ (0 < s)%Z.

  (** The tet has vertex [v]. *)
  Definition tet_at m (v id : N) : Prop := ∃ w, valid m w ∧ w_tet w = id ∧ w_first m w = Some v.

  (** What is asked of the comparisons of distances: [lt] is a strict order in which the ghost vertex
      is never nearer, and a smallest element with respect to [less] is nearer than all that some
      element is nearer than. *)
  Record distances (less lt : N → N → bool) : Prop := Distances {
    ds_irrefl a : lt a a = false;
    ds_trans a b c : lt a b = true → lt b c = true → lt a c = true;
    ds_ghost a : lt GHOST a = false;
    ds_less_trans a b c : less b a = false → less c b = false → less c a = false;
    ds_less_asym a b : less a b = true → less b a = false;
    ds_min a b c : less b a = false → lt b c = true → lt a c = true }.

  (** No neighbour of [c] except [v] is nearer than [c]. *)
  Definition nearest m (lt : N → N → bool) (v c : N) : Prop :=
    attached m c ∧ ∀ b, joined m c b → b ≠ v → lt b c = false.

  (** There is room for the vertex: a fresh id, or the given id of a vertex that is not part of a tet. *)
  Definition can_place m (id : option N) : Prop :=
    match id with
    | None => (im_npi (m_verts m) < GHOST)%N
    | Some v => v ≠ GHOST ∧ ¬ attached m v
    end.

  (** [m'] is [m] with the vertex [v], which was not part of a tet, at [p] with value [x]. *)
  Record placed m (v : N) (p : pt) (x : V) m' : Prop := Placed {
    pl_vert : im_get (m_verts m') v = Some (Vertex (Walker invalid_id 0) vf_empty p x);
    pl_others a : a ≠ v → im_get (m_verts m') a = im_get (m_verts m) a;
    pl_rest : m_edges m' = m_edges m ∧ m_tets m' = m_tets m ∧ m_trimap m' = m_trimap m ∧
      m_ghost_flags m' = m_ghost_flags m ∧ m_track m' = m_track m ∧ m_center m' = m_center m }.

  (** The tets [B'] with apex [v] and the tets across the triangles opposite to [v] do not violate the
      Delaunay property: the vertex [d] across the triangle is not inside the circumsphere, and
      strictly outside for solid tets; below a ghost tet the new tet is not flat or inverted. *)
  Definition locally_delaunay m (v : N) (B' : list walker) : Prop := ∀ w, w ∈ B' →
    ∃ a b c d u, w_verts m w = Some (A4 a b c v) ∧ to_adj m w = Some u ∧ w_verts m u = Some (A4 b a c d) ∧
      (d ≠ GHOST → ∃ s, in_sphere m a b c v d = Some s ∧ (s <= 0)%Z ∧ (GHOST ∉ [a; b; c] → s < 0)%Z) ∧
      (d = GHOST → ∃ s, orient_3d m a b c v = Some s ∧ (0 < s)%Z).
End spec.
