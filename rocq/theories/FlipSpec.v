(** What a flip does to the rest of the mesh, in terms of the mesh tables. *)
From stdpp Require Import base numbers list gmap option.
From Coq Require Import NArith ZArith.
From Verif Require Import IdMapModel WalkerModel WalkerSpec MeshModel MeshSpec.
Local Open Scope nat_scope.

Section spec.
  Context {V T : Type}.
  Implicit Types (m : mesh V T) (w : walker).

  (** The oriented tet (a, b, c, d), or an even reordering of it, is in the mesh. *)
  Definition has_tet m (vs : arr4 N) : Prop := ∃ w, valid m w ∧ w_verts m w = Some vs.
  (** The triangle is in the mesh and locked. *)
  Definition locked_tri m (t : N * N * N) : Prop :=
    ∃ w, valid m w ∧ w_tri m w = Some t ∧ w_locked m w = Some true.

  (** The edge is in the mesh and locked. *)
  Definition locked_edge m (a b : N) : Prop :=
    ∃ e ue, im_get (m_edges m) e = Some ue ∧ ue_vs ue = sorted_2 (a, b) ∧ ue_locked ue = true.

  (** Two triangles with the same corners, in whatever order. *)
  Definition same_corners (t t' : N * N * N) : Prop :=
    ∀ x, x ∈ [t.1.1; t.1.2; t.2] ↔ x ∈ [t'.1.1; t'.1.2; t'.2].

  (** Tets [old] are replaced by tets [new] (ids with their vertices); edges joining the pairs
      [eadd] are new, edges joining the pairs [edel] are gone; everything else is as before
      (except for links into the replaced tets and for the tets vertices refer to). *)
  Record replaces m m' (old : list N) (new : list (N * arr4 N)) (eadd edel : list (N * N)) : Prop := Replaces {
    rp_old id : id ∈ old → is_Some (tet_get m id);
    rp_new id vs : (id, vs) ∈ new → t_vs <$> tet_get m' id = Some vs;
    rp_gone id : id ∈ old → id ∉ new.*1 → tet_get m' id = None;
    rp_fresh id : id ∈ new.*1 → id ∉ old → tet_get m id = None;
    rp_out id : id ∉ old → id ∉ new.*1 →
      (λ t, (t_vs t, t_edges t, t_flags t, t_val t)) <$> tet_get m' id =
      (λ t, (t_vs t, t_edges t, t_flags t, t_val t)) <$> tet_get m id;
    rp_edges e ue : im_get (m_edges m') e = Some ue ↔
      (im_get (m_edges m) e = Some ue ∧ ue_vs ue ∉ (sorted_2 <$> edel)) ∨
      (im_get (m_edges m) e = None ∧ im_get (m_edges m') e = Some ue ∧ ∃ p, p ∈ eadd ∧ ue = uedge_new p);
    rp_verts x :
      (λ vt, (v_flags vt, v_pos vt, v_val vt)) <$> im_get (m_verts m') x =
      (λ vt, (v_flags vt, v_pos vt, v_val vt)) <$> im_get (m_verts m) x;
    rp_ghost_flags : m_ghost_flags m' = m_ghost_flags m;
    rp_track : m_track m' = m_track m;
    rp_center : m_center m' = m_center m }.

  (** Room for [nt] more tets and [ne] more edges below the 32 bit id limit. *)
  Definition id_room m (nt ne : N) : Prop :=
    (im_npi (m_tets m) + nt ≤ u32_mod)%N ∧ (im_npi (m_edges m) + ne ≤ u32_mod)%N.

  (** The 1-to-4 flip of the walker's tet [a b c d] with the new vertex [v]: four tets, each with one
      vertex replaced by [v]; walker [i] is on old triangle [i], with [v] opposite to it. *)
  Record flip14_spec m (self : walker) (v : N) m' (ws : arr4 walker) : Prop := Flip14Spec {
    fs14_repl : ∃ a b c d id1 id2 id3,
      tet_get m (w_tet self) ≫= (λ t, Some (t_vs t)) = Some (A4 a b c d) ∧
      NoDup [w_tet self; id1; id2; id3] ∧
      ws = A4 (Walker (w_tet self) 0) (Walker id1 1) (Walker id2 2) (Walker id3 3) ∧
      replaces m m' [w_tet self]
        [(w_tet self, A4 v b c d); (id1, A4 a v c d); (id2, A4 a b v d); (id3, A4 a b c v)]
        [(a, v); (b, v); (c, v); (d, v)] [];
    fs14_walkers i : i < 4 →
      w_tri m' (get4 ws i) = w_tri m (Walker (w_tet self) i) ∧ w_fourth m' (get4 ws i) = Some v ∧
      valid m' (get4 ws i);
    fs14_locks t : locked_tri m' t ↔ locked_tri m t;
    fs14_vref : v_tet <$> im_get (m_verts m') v = Some self;
    fs14_room nt ne : id_room m (nt + 3) (ne + 4) → id_room m' nt ne;
    fs14_nverts : im_npi (m_verts m') = im_npi (m_verts m) }.


  (** The 2-to-3 flip of the triangle [a b c] with opposite vertices [d] (in the walker's tet) and [e]. *)
  Record flip23_spec m (self : walker) m' (ws : walker * walker * walker) (a b c d e : N) (other : walker) (id2 : N) : Prop := Flip23Spec {
    fs23_self : w_verts m self = Some (A4 a b c d);
    fs23_other : to_adj m self = Some other ∧ w_verts m other = Some (A4 b a c e);
    fs23_ids : NoDup [w_tet self; w_tet other; id2];
    fs23_repl : replaces m m' [w_tet self; w_tet other]
        [(w_tet self, A4 b a d e); (w_tet other, A4 a c d e); (id2, A4 c b d e)] [(d, e)] [];
    fs23_ws : ws = (Walker (w_tet self) 2, Walker (w_tet other) 2, Walker id2 2);
    fs23_wvalid : valid m' ws.1.1 ∧ valid m' ws.1.2 ∧ valid m' ws.2;
    fs23_wverts : w_verts m' ws.1.1 = Some (A4 a b e d) ∧ w_verts m' ws.1.2 = Some (A4 c a e d) ∧
      w_verts m' ws.2 = Some (A4 b c e d);
    fs23_locks t : locked_tri m' t ↔ locked_tri m t ∧ ¬ same_corners t (a, b, c);
    fs23_room nt ne : id_room m (nt + 1) (ne + 1) → id_room m' nt ne;
    fs23_nverts : im_npi (m_verts m') = im_npi (m_verts m) }.


  (** The 3-to-2 flip of the edge [p q] with the three tets [p q x y], [p q y z] and [p q z x]. *)
  Record flip32_spec m (self : walker) m' (ws : walker * walker) (p q x y z : N) (other1 other2 : walker) : Prop := Flip32Spec {
    fs32_self : w_verts m self = Some (A4 p q x y);
    fs32_other1 : ring_next m self = Some other1 ∧ w_verts m other1 = Some (A4 p q y z);
    fs32_other2 : ring_next m other1 = Some other2 ∧ w_verts m other2 = Some (A4 p q z x);
    fs32_ids : NoDup [w_tet self; w_tet other1; w_tet other2];
    fs32_repl : replaces m m' [w_tet self; w_tet other1; w_tet other2]
        [(w_tet self, A4 y x z p); (w_tet other1, A4 x y z q)] [] [(p, q)];
    fs32_ws : ws = (Walker (w_tet self) 10, Walker (w_tet other1) 10);
    fs32_wvalid : valid m' ws.1 ∧ valid m' ws.2;
    fs32_wverts : w_verts m' ws.1 = Some (A4 p x y z) ∧ w_verts m' ws.2 = Some (A4 q y x z);
    fs32_locks t : locked_tri m' t ↔ locked_tri m t ∧ ¬ (p ∈ [t.1.1; t.1.2; t.2] ∧ q ∈ [t.1.1; t.1.2; t.2]);
    fs32_room : im_npi (m_tets m') = im_npi (m_tets m) ∧ im_npi (m_edges m') = im_npi (m_edges m);
    fs32_nverts : im_npi (m_verts m') = im_npi (m_verts m) }.


  (** The 4-to-4 flip of the edge [p q] with the four tets [p q x y], [p q y z], [p q z u] and [p q u x];
      the new edge is [x z]. *)
  Record flip44_spec m (self : walker) m' (ws : list walker) (p q x y z u : N) (r1 r2 r3 : walker) : Prop := Flip44Spec {
    fs44_ring : w_verts m self = Some (A4 p q x y) ∧ w_verts m r1 = Some (A4 p q y z) ∧
      w_verts m r2 = Some (A4 p q z u) ∧ w_verts m r3 = Some (A4 p q u x);
    fs44_ids : NoDup [w_tet self; w_tet r1; w_tet r2; w_tet r3];
    fs44_repl : ∃ id, is_Some (tet_get m' id) ∧ 
      replaces m m' [w_tet self; w_tet r1; w_tet r2; w_tet r3]
        [(w_tet self, A4 x z u q); (w_tet r1, A4 q y x z); (id, A4 y p x z); (w_tet r3, A4 z x u p)] [(x, z)] [(q, p)];
    fs44_ws : ∃ w0 w1 w2 w3, ws = [w0; w1; w2; w3] ∧ NoDup (w_tet <$> ws) ∧ Forall (valid m') ws ∧
      w_verts m' w0 = Some (A4 z x y q) ∧ w_verts m' w1 = Some (A4 z x q u) ∧
      w_verts m' w2 = Some (A4 z x u p) ∧ w_verts m' w3 = Some (A4 z x p y) ∧
      ring_next m' w0 = Some w1 ∧ ring_next m' w1 = Some w2 ∧ ring_next m' w2 = Some w3 ∧ ring_next m' w3 = Some w0;
    fs44_locks t : locked_tri m' t ↔ locked_tri m t ∧ ¬ (p ∈ [t.1.1; t.1.2; t.2] ∧ q ∈ [t.1.1; t.1.2; t.2]);
    fs44_room nt ne : id_room m (nt + 1) (ne + 1) → id_room m' nt ne;
    fs44_nverts : im_npi (m_verts m') = im_npi (m_verts m) }.
End spec.
