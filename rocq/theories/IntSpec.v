(** What [assert_integrity] checks, in terms of the walker API. *)
From stdpp Require Import base numbers list gmap option.
From Coq Require Import NArith ZArith.
From Verif Require Import IdMapModel WalkerModel WalkerSpec MeshModel MeshSpec MeshOps.
Local Open Scope nat_scope.

(** No slot at or beyond the next index to be used is occupied. *)
Definition bounded {A} (im : idmap A) : Prop := ∀ k x, im_get im k = Some x → (k < im_npi im)%N.

Section spec.
  Context {V T : Type}.
  Implicit Types (m : mesh V T) (w : walker).

  Record intact (ori : option (arr4 N → bool)) m : Prop := Intact {
    (** the walker stored with each vertex starts at that vertex *)
    in_vref v vt : im_get (m_verts m) v = Some vt → w_tet (v_tet vt) ≠ invalid_id ∧ w_first m (v_tet vt) = Some v;
    (** edges are sorted, no two have the same ends, and each is the edge of some walker *)
    in_edge_sorted e ue : im_get (m_edges m) e = Some ue → ((ue_vs ue).1 < (ue_vs ue).2)%N;
    in_edge_unique e e' ue ue' : im_get (m_edges m) e = Some ue → im_get (m_edges m) e' = Some ue' → ue_vs ue = ue_vs ue' → e = e';
    in_edge_used e : is_Some (im_get (m_edges m) e) → ∃ w, valid m w ∧ undir_edge m w = Some e;
    (** the four vertices of a tet are distinct, and the tet passes the orientation test *)
    in_distinct id t : tet_get m id = Some t → NoDup (list4 (t_vs t));
    in_orient f id t : ori = Some f → tet_get m id = Some t → f (t_vs t) = true;
    (** crossing a triangle leads to the same triangle seen from the other side, and crossing back
        to a walker with the vertices of the first *)
    in_adj w a b c d : valid m w → w_verts m w = Some (A4 a b c d) →
      ∃ w' x w'', to_adj m w = Some w' ∧ valid m w' ∧ w_verts m w' = Some (A4 b a c x) ∧
                  to_adj m w' = Some w'' ∧ valid m w'' ∧ w_verts m w'' = Some (A4 a b c d);
    (** a triangle is locked on both sides or on neither *)
    in_lock w w' : valid m w → to_adj m w = Some w' → w_locked m w' = w_locked m w;
    (** the edge of a walker has its two ends *)
    in_edge w a b : valid m w → w_pair m w = Some (a, b) →
      ∃ e ue, undir_edge m w = Some e ∧ im_get (m_edges m) e = Some ue ∧ ue_vs ue = sorted_2 (a, b);
    (** a tracked triangle map has an entry for every triangle, and its entries are right *)
    in_trimap : m_track m = true → ∀ k w, m_trimap m !! k = Some w → ∃ t, w_tri m w = Some t ∧ tri_key t = k;
    in_listed : m_track m = true → ∀ w t, valid m w → w_edge w < 4 → w_tri m w = Some t → is_Some (m_trimap m !! tri_key t) }.
End spec.
