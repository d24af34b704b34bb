(** What it means for a tet mesh to be consistent, in terms of the walker API. *)
From stdpp Require Import base numbers list gmap option relations.
From Coq Require Import NArith ZArith.
From Verif Require Import IdMapModel IdMapProofs WalkerModel WalkerSpec MeshModel.
Local Open Scope nat_scope.

Section spec.
  Context {V T : Type}.
  Implicit Types (m : mesh V T) (w : walker).

  (** A usable walker: its tet exists and its position is legal. *)
  Definition valid m w : Prop := is_Some (tet_get m (w_tet w)) ∧ w_edge w < 12.

  (** [v] is a vertex of some tet. *)
  Definition attached m (v : N) : Prop := ∃ w, valid m w ∧ w_first m w = Some v.

  (** Two vertices are joined by an edge of some tet. *)
  Definition joined m (a b : N) : Prop := ∃ w, valid m w ∧ w_pair m w = Some (a, b).

  (** The oriented triangle (a, b, c) is a face of some tet. *)
  Definition has_tri m (a b c : N) : Prop := ∃ w, valid m w ∧ w_tri m w = Some (a, b, c).

  (** One step between walkers that keep the same first vertex: turn around the vertex inside
      the tet, or cross the current triangle. *)
  Definition vertex_step m (w w' : walker) : Prop :=
    valid m w ∧ (w' = to_nve w ∨ ∃ x, to_adj m w = Some x ∧ w' = to_nfe x).

  (** One step around the current edge. *)
  Definition edge_step m (w w' : walker) : Prop := valid m w ∧ ring_next m w = Some w'.

  Record mesh_ok m : Prop := MeshOk {
    (** ids: the three id maps are well formed, and the reserved id is not a vertex *)
    ok_ids_verts : im_wf (m_verts m);
    ok_ids_edges : im_wf (m_edges m);
    ok_ids_tets : im_wf (m_tets m);
    ok_ghost : im_get (m_verts m) GHOST = None;
    (** the four vertices of a tet are distinct and exist *)
    ok_distinct w a b c d : valid m w → w_verts m w = Some (A4 a b c d) → NoDup [a; b; c; d];
    ok_exist w a : valid m w → w_first m w = Some a → a = GHOST ∨ is_Some (im_get (m_verts m) a);
    (** crossing a triangle leads to a usable walker on the same triangle seen from the other
        side, and crossing back returns to the starting walker *)
    ok_adj w a b c d : valid m w → w_verts m w = Some (A4 a b c d) →
      ∃ w' x, to_adj m w = Some w' ∧ valid m w' ∧ w_verts m w' = Some (A4 b a c x) ∧
              to_adj m w' = Some w;
    (** an oriented triangle belongs to one tet *)
    ok_tri_unique w w' t : valid m w → valid m w' →
      w_tri m w = Some t → w_tri m w' = Some t → w = w';
    (** undirected edges: each walker's edge id is live and stores its two vertices in
        increasing order; ids and vertex pairs correspond one to one; no unused ids *)
    ok_edge w a b : valid m w → w_pair m w = Some (a, b) →
      ∃ e ue, undir_edge m w = Some e ∧ im_get (m_edges m) e = Some ue ∧ ue_vs ue = sorted_2 (a, b);
    ok_edge_unique e e' ue ue' : im_get (m_edges m) e = Some ue → im_get (m_edges m) e' = Some ue' →
      ue_vs ue = ue_vs ue' → e = e';
    ok_edge_used e ue : im_get (m_edges m) e = Some ue → joined m (ue_vs ue).1 (ue_vs ue).2;
    ok_edge_sorted e ue : im_get (m_edges m) e = Some ue → ((ue_vs ue).1 < (ue_vs ue).2)%N;
    (** the walker stored with a vertex that is part of a tet starts at that vertex *)
    ok_vref v vt : im_get (m_verts m) v = Some vt → attached m v →
      valid m (v_tet vt) ∧ w_first m (v_tet vt) = Some v;
    (** a triangle is locked on both sides or on neither *)
    ok_lock w w' : valid m w → to_adj m w = Some w' → w_locked m w' = w_locked m w;
    (** a tracked triangle map holds exactly one entry for each oriented triangle *)
    ok_trimap : m_track m = true → ∀ k w, m_trimap m !! k = Some w ↔
      valid m w ∧ w_edge w < 4 ∧ ∃ t, w_tri m w = Some t ∧ tri_key t = k;
    (** the tets around an edge form one ring, the tets around a vertex are connected through
        triangles at that vertex *)
    ok_ring w w' p : valid m w → valid m w' → w_pair m w = Some p → w_pair m w' = Some p →
      rtsc (edge_step m) w w';
    ok_star w w' v : valid m w → valid m w' → w_first m w = Some v → w_first m w' = Some v →
      rtsc (vertex_step m) w w'
  }.
End spec.
