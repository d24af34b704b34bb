(** What filling a cavity with a vertex should do, in terms of the walker API. *)
From stdpp Require Import base numbers list gmap option relations.
From Coq Require Import NArith ZArith.
From Verif Require Import IdMapModel WalkerModel WalkerSpec MeshModel MeshOps MeshSpec IterModel CavSpec.
Local Open Scope nat_scope.

Section spec.
  Context {V T : Type}.
  Implicit Types (m : mesh V T) (w u : walker) (E : list N) (B : list walker).

  (** No operation is under way: none of the working flags and references is set. *)
  Record at_rest m : Prop := AtRest {
    ar_search : no_cavity_flags m;
    ar_tets id t : tet_get m id = Some t → f_boundary (t_flags t) = false ∧ f_dup (t_flags t) = false;
    ar_edges e ue : im_get (m_edges m) e = Some ue → ue_boundary ue = false ∧ w_tet (ue_bw ue) = invalid_id;
    ar_verts x f : vertex_flags m x = Some f → vf_edge_added f = false }.

  (** The vertex exists, is in no tet, and its reference has not been set. *)
  Definition loose m (v : N) : Prop :=
    (∃ vt, im_get (m_verts m) v = Some vt ∧ w_tet (v_tet vt) = invalid_id) ∧ ¬ attached m v.

  (** A walker on a boundary triangle of [E], on the side of [E]. *)
  Definition on_boundary m E u : Prop := valid m u ∧ leaves m E u.
  (** Going around the first vertex of a boundary triangle to the next boundary triangle. *)
  Definition around m E u u'' : Prop := ∃ u' a b, on_boundary m E u ∧ on_boundary m E u' ∧
    w_pair m u = Some (a, b) ∧ w_pair m u' = Some (b, a) ∧ u'' = to_nfe u'.
  (** The boundary of [E] is a connected surface: an oriented edge is on at most one boundary
      triangle, the boundary triangles at a vertex form one fan, and all triangles are connected. *)
  Record surface m E : Prop := Surface {
    su_edge u u' p : on_boundary m E u → on_boundary m E u' → w_pair m u = Some p → w_pair m u' = Some p → u = u';
    su_fan u u' a : on_boundary m E u → on_boundary m E u' → w_first m u = Some a → w_first m u' = Some a →
      rtsc (around m E) u u';
    su_connected u u' : on_boundary m E u → on_boundary m E u' →
      rtsc (λ x y, around m E x y ∨ (on_boundary m E x ∧ y = to_nfe x)) u u' }.

  (** The vertex is a corner of a boundary triangle. *)
  Definition corner m E (a : N) : Prop := ∃ u, on_boundary m E u ∧ w_first m u = Some a.

  (** The oriented triangle [t] is in the mesh and locked. *)
  Definition locked_tri m (t : N * N * N) : Prop := ∃ w, valid m w ∧ w_tri m w = Some t ∧ w_locked m w = Some true.

  (** [m'] and [B'] are [m] and [B] after filling the cavity [E] with boundary [B] from [v]. *)
  Record filled m (v : N) E B m' B' : Prop := Filled {
    (** a tet with apex [v] over each boundary triangle, with the value of the tet it replaces *)
    fi_cone : Forall2 (λ w w', valid m' w' ∧ ∃ a b c t t', w_tri m w = Some (a, b, c) ∧ w_verts m' w' = Some (A4 a b c v) ∧
      tet_get m (w_tet w) = Some t ∧ tet_get m' (w_tet w') = Some t' ∧ t_val t' = t_val t) B B';
    fi_distinct : NoDup (w_tet <$> B');
    (** these and the tets outside the cavity are all there is *)
    fi_tets id : is_Some (tet_get m' id) ↔ id ∈ w_tet <$> B' ∨ (is_Some (tet_get m id) ∧ id ∉ E);
    fi_ids id : id ∈ w_tet <$> B' → id ∈ E ∨ tet_get m id = None;
    (** a tet outside the cavity keeps its vertices, flags, value and edges *)
    fi_kept id t : tet_get m id = Some t → id ∉ E →
      ∃ t', tet_get m' id = Some t' ∧ t_vs t' = t_vs t ∧ t_flags t' = t_flags t ∧ t_val t' = t_val t;
    fi_kept_edge w e : valid m w → w_tet w ∉ E → undir_edge m w = Some e →
      undir_edge m' w = Some e ∧ w_edge_locked m' w = w_edge_locked m w;
    (** the edges are those of the tets outside the cavity and one from each corner to [v], not locked *)
    fi_edges e ue' : im_get (m_edges m') e = Some ue' →
      (∃ w ue, valid m w ∧ w_tet w ∉ E ∧ undir_edge m w = Some e ∧ im_get (m_edges m) e = Some ue ∧
         ue_vs ue' = ue_vs ue ∧ ue_locked ue' = ue_locked ue) ∨
      (∃ a, corner m E a ∧ ue_vs ue' = sorted_2 (a, v) ∧ ue_locked ue' = false);
    fi_spokes a : corner m E a → ∃ e ue', im_get (m_edges m') e = Some ue' ∧ ue_vs ue' = sorted_2 (a, v) ∧ ue_locked ue' = false;
    (** locked triangles stay unless they were in the inside of the cavity; no others are locked *)
    fi_locks t : locked_tri m' t ↔ ∃ w, valid m w ∧ w_tri m w = Some t ∧ w_locked m w = Some true ∧ ¬ tri_inside m E w;
    (** vertices keep everything but their reference *)
    fi_verts x : (λ vt, (v_flags vt, v_pos vt, v_val vt)) <$> im_get (m_verts m') x =
      (λ vt, (v_flags vt, v_pos vt, v_val vt)) <$> im_get (m_verts m) x;
    fi_rest : m_ghost_flags m' = m_ghost_flags m ∧ m_track m' = m_track m ∧ m_center m' = m_center m;
    (** room for ids *)
    fi_room : (im_npi (m_tets m') ≤ im_npi (m_tets m) + N.of_nat (length B))%N ∧
      (im_npi (m_edges m') ≤ im_npi (m_edges m) + N.of_nat (3 * length B))%N ∧ im_npi (m_verts m') = im_npi (m_verts m) }.
End spec.
