(** What it means to insert a tet into a mesh with holes, in terms of the walker API. *)
From stdpp Require Import base numbers list gmap option.
From Coq Require Import NArith ZArith.
From Verif Require Import IdMapModel IdMapProofs WalkerModel WalkerSpec MeshModel MeshOps MeshSpec FlipSpec.
Local Open Scope nat_scope.

Section spec.
  Context {V T : Type}.
  Implicit Types (m : mesh V T) (w u : walker) (em : gmap (N * N) N).

  (** A mesh in which a triangle need not have a tet on each side.  Where it has, the two tets are glued to each other. *)
  Record open_mesh m : Prop := OpenMesh {
    om_ids_verts : im_wf (m_verts m);
    om_ids_edges : im_wf (m_edges m);
    om_ids_tets : im_wf (m_tets m);
    om_distinct w a b c d : valid m w → w_verts m w = Some (A4 a b c d) → NoDup [a; b; c; d];
    om_glue w w' a b c d d' : valid m w → valid m w' → w_verts m w = Some (A4 a b c d) → w_verts m w' = Some (A4 b a c d') →
      to_adj m w = Some w';
    om_tri_unique w w' t : valid m w → valid m w' → w_tri m w = Some t → w_tri m w' = Some t → w = w';
    om_edge w a b : valid m w → w_pair m w = Some (a, b) →
      ∃ e ue, undir_edge m w = Some e ∧ im_get (m_edges m) e = Some ue ∧ ue_vs ue = sorted_2 (a, b);
    om_edge_unique e e' ue ue' : im_get (m_edges m) e = Some ue → im_get (m_edges m) e' = Some ue' →
      ue_vs ue = ue_vs ue' → e = e';
    om_track : m_track m = true;
    om_trimap k w : m_trimap m !! k = Some w ↔
      valid m w ∧ w_edge w < 4 ∧ ∃ t, w_tri m w = Some t ∧ tri_key t = k }.

  (** The triangles of the tet [a b c d], with all their rotations, as seen from outside the tet. *)
  Definition tet_tris (a b c d : N) : list (N * N * N) :=
    [(d, c, b); (c, d, a); (b, a, d); (a, b, c); (c, b, d); (d, a, c);
     (a, d, b); (b, c, a); (b, d, c); (a, c, d); (d, b, a); (c, a, b)].

  (** The map [em] lists the edges of the mesh between the pairs of vertices in [S]. *)
  Definition lists_edges (S : N → N → Prop) m em : Prop := ∀ a b e, S a b → a ≠ b →
    em !! sorted_2 (a, b) = Some e ↔ ∃ ue, im_get (m_edges m) e = Some ue ∧ ue_vs ue = sorted_2 (a, b).

  (** [m'] is [m] with the tet of [w], with the vertices [a b c d], inserted. *)
  Record tet_inserted (dflt : T) m (a b c d : N) m' w : Prop := TetInserted {
    ti_open : open_mesh m';
    (** the tets are those of [m] and a new one *)
    ti_new : tet_get m (w_tet w) = None;
    ti_valid u : valid m' u ↔ valid m u ∨ (w_tet u = w_tet w ∧ w_edge u < 12);
    (** the walker returned is at the triangle [a b c], with [d] behind it *)
    ti_verts : valid m' w ∧ w_verts m' w = Some (A4 a b c d);
    ti_flags u : w_tet u = w_tet w → w_locked m' u = Some false;
    ti_val : t_val <$> tet_get m' (w_tet w) = Some dflt;
    (** the old tets keep their vertices, edges, locks and values *)
    ti_old u : valid m u → w_verts m' u = w_verts m u ∧ undir_edge m' u = undir_edge m u ∧ w_locked m' u = w_locked m u ∧
      t_val <$> tet_get m' (w_tet u) = t_val <$> tet_get m (w_tet u);
    (** old edges are kept as they are; new ones join vertices of the tet and are not locked *)
    ti_edge_old e ue : im_get (m_edges m) e = Some ue → im_get (m_edges m') e = Some ue;
    ti_edge_new e ue : im_get (m_edges m) e = None → im_get (m_edges m') e = Some ue →
      ue_locked ue = false ∧ ∃ x y, x ∈ [a; b; c; d] ∧ y ∈ [a; b; c; d] ∧ ue_vs ue = sorted_2 (x, y);
    (** each vertex of the tet refers to it; nothing else about the vertices is changed *)
    ti_ref v : v ∈ [a; b; c; d] → ∃ vt vt', im_get (m_verts m) v = Some vt ∧ im_get (m_verts m') v = Some vt' ∧
      v_flags vt' = v_flags vt ∧ v_pos vt' = v_pos vt ∧ v_val vt' = v_val vt ∧
      w_tet (v_tet vt') = w_tet w ∧ valid m' (v_tet vt') ∧ w_first m' (v_tet vt') = Some v;
    ti_other v : v ∉ [a; b; c; d] → im_get (m_verts m') v = im_get (m_verts m) v;
    ti_rest : m_ghost_flags m' = m_ghost_flags m ∧ m_center m' = m_center m }.

  (** ** Replacing tets by other tets *)
  Definition tris_of (q : arr4 N) : list (N * N * N) := tet_tris (q0 q) (q1 q) (q2 q) (q3 q).
  (** The other side of a triangle, and its rotations. *)
  Definition swap3 (t : N * N * N) : N * N * N := (t.1.2, t.1.1, t.2).
  Definition rots3 (t : N * N * N) : list (N * N * N) := [t; (t.1.2, t.2, t.1.1); (t.2, t.1.1, t.1.2)].
  Definition both (q : arr4 N) (x y : N) : Prop := x ∈ list4 q ∧ y ∈ list4 q ∧ x ≠ y.

  (** The tets [out] of the mesh, given by their vertices, can be replaced by the tets [new], when the edges [gone] are given up. *)
  Record replaceable m (out new : list (arr4 N)) (gone : list (N * N)) : Prop := Replaceable {
    rp_out q : q ∈ out → ∃ w, valid m w ∧ w_verts m w = Some q;
    (** the new tets have four vertices, out of those of the old *)
    rp_new q : q ∈ new → NoDup (list4 q) ∧ ∀ v, v ∈ list4 q → v ≠ GHOST ∧ ∃ q', q' ∈ out ∧ v ∈ list4 q';
    (** no two of them have a triangle in common from the same side, nor with the rest of the mesh *)
    rp_once : NoDup (new ≫= tris_of);
    rp_free w t : valid m w → w_tri m w = Some t → t ∈ new ≫= tris_of → t ∈ out ≫= tris_of;
    (** they fill the same space: their surface is that of the old *)
    rp_fill t : (t ∈ new ≫= tris_of ∧ swap3 t ∉ new ≫= tris_of) ↔ (t ∈ out ≫= tris_of ∧ swap3 t ∉ out ≫= tris_of);
    (** their edges are new to the mesh or edges of the old *)
    rp_edges q x y : q ∈ new → both q x y → joined m x y → ∃ q', q' ∈ out ∧ both q' x y;
    (** the vertices of the old are vertices of the new, and so are their edges, except for those given up *)
    rp_verts q v : q ∈ out → v ∈ list4 q → ∃ q', q' ∈ new ∧ v ∈ list4 q';
    rp_keep q x y : q ∈ out → both q x y → ((x, y) ∈ gone ∧ ∀ q', q' ∈ new → ¬ both q' x y) ∨ ((x, y) ∉ gone ∧ ∃ q', q' ∈ new ∧ both q' x y) }.

  (** [m'] is [m] with the tets [out] replaced by the tets [new].  The triangles [ftris] and the edges [fedges] are unlocked,
      the triangles [ltris] and the edges [ledges] are locked. *)
  Record replaced (dflt : T) m (out new : list (arr4 N)) (gone : list (N * N)) (ftris ltris : list (N * N * N)) (fedges ledges : list (N * N)) m' : Prop := Replaced {
    rd_open : open_mesh m';
    rd_adj w a b c d : valid m' w → w_verts m' w = Some (A4 a b c d) →
      ∃ w' x, to_adj m' w = Some w' ∧ valid m' w' ∧ w_verts m' w' = Some (A4 b a c x) ∧ to_adj m' w' = Some w;
    rd_kept u t : valid m u → w_tri m u = Some t → t ∉ out ≫= tris_of →
      valid m' u ∧ w_verts m' u = w_verts m u ∧ undir_edge m' u = undir_edge m u ∧ t_val <$> tet_get m' (w_tet u) = t_val <$> tet_get m (w_tet u);
    rd_new q : q ∈ new → ∃ w, valid m' w ∧ w_verts m' w = Some q ∧ t_val <$> tet_get m' (w_tet w) = Some dflt;
    rd_tris a b c : has_tri m' a b c ↔ (has_tri m a b c ∧ (a, b, c) ∉ out ≫= tris_of) ∨ (a, b, c) ∈ new ≫= tris_of;
    rd_edge_used e ue : im_get (m_edges m') e = Some ue → joined m' (ue_vs ue).1 (ue_vs ue).2;
    rd_edge_sorted e ue : im_get (m_edges m') e = Some ue → ((ue_vs ue).1 < (ue_vs ue).2)%N;
    rd_lock_tri t : locked_tri m' t ↔ t ∈ ltris ≫= rots3 ∨ (locked_tri m t ∧ t ∉ out ≫= tris_of ∧ t ∉ ftris ≫= rots3);
    rd_lock_edge a b : a ≠ b → locked_edge m' a b ↔ (a, b) ∈ ledges ∨ (b, a) ∈ ledges ∨
      (locked_edge m a b ∧ (a, b) ∉ fedges ∧ (b, a) ∉ fedges ∧ (a, b) ∉ gone ∧ (b, a) ∉ gone);
    rd_vref v vt : im_get (m_verts m') v = Some vt → attached m' v → valid m' (v_tet vt) ∧ w_first m' (v_tet vt) = Some v;
    rd_vert v : (λ vt, (v_flags vt, v_pos vt, v_val vt)) <$> im_get (m_verts m') v = (λ vt, (v_flags vt, v_pos vt, v_val vt)) <$> im_get (m_verts m) v;
    rd_rest : m_ghost_flags m' = m_ghost_flags m ∧ m_center m' = m_center m }.

  (** The tets between top and bottom at the sides of a polygon, and those at the triangles that are to fill it. *)
  Definition side_tets (vt vb : N) (sides : list (N * N)) : list (arr4 N) := (λ e, A4 e.2 vt e.1 vb) <$> sides.
  Definition tri_tets (vt vb : N) (tris : list (N * N * N)) : list (arr4 N) :=
    tris ≫= λ t, [A4 t.1.2 t.1.1 t.2 vt; A4 t.1.1 t.1.2 t.2 vb].
  Definition edges_of (t : N * N * N) : list (N * N) := [(t.1.1, t.1.2); (t.1.2, t.2); (t.2, t.1.1)].
  Definition path_sides (l : list N) : list (N * N) := zip l (drop 1 l).
  Definition ring_sides (l : list N) : list (N * N) := zip l (drop 1 l ++ take 1 l).
End spec.
