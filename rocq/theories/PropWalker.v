(** Properties C07-C11: walkers inside one tet and canonical vertex orders. *)
From stdpp Require Import base numbers list gmap option.
From Coq Require Import NArith ZArith Lia.
From Verif Require Import IdMapModel WalkerModel WalkerSpec WalkerProofs SortProofs MeshModel WalkerMore.
Local Open Scope nat_scope.

(** C07. In any mesh, for any live tet: the vertex order reported at a legal position is an even
    rearrangement of the stored order; every even rearrangement is reported by exactly one
    position; and all the partial accessors agree with the full one. *)
Theorem C07_positions_are_even_orders {V T} (m : mesh V T) id t : tet_get m id = Some t →
  (∀ e, e < 12 → ∃ σ, even_perm σ ∧ w_verts m (Walker id e) = Some (reorder (t_vs t) σ)) ∧
  (NoDup (list4 (t_vs t)) → ∀ σ, even_perm σ →
     ∃ e, (e < 12 ∧ w_verts m (Walker id e) = Some (reorder (t_vs t) σ)) ∧
          ∀ e', e' < 12 → w_verts m (Walker id e') = Some (reorder (t_vs t) σ) → e' = e).
Proof. exact (walker_positions m id t). Qed.
Print Assumptions C07_positions_are_even_orders.

Theorem C07_accessors_agree {V T} (m : mesh V T) w a b c d :
  w_verts m w = Some (A4 a b c d) →
  w_first m w = Some a ∧ w_second m w = Some b ∧ w_third m w = Some c ∧ w_fourth m w = Some d ∧
  w_pair m w = Some (a, b) ∧ w_opp_pair m w = Some (c, d) ∧
  w_tri m w = Some (a, b, c) ∧ w_opp_tri m w = Some (d, c, b).
Proof. exact (walker_accessors m w a b c d). Qed.
Print Assumptions C07_accessors_agree.

(** C08. The effect of each move on the reported vertices [a b c d] of a walker in any mesh. *)
Theorem C08_moves_permute_vertices {V T} (m : mesh V T) w a b c d : pos_ok w →
  w_verts m w = Some (A4 a b c d) →
  w_verts m (to_nfe w) = Some (A4 b c a d) ∧
  w_verts m (to_pfe w) = Some (A4 c a b d) ∧
  w_verts m (to_nve w) = Some (A4 a c d b) ∧
  w_verts m (to_pve w) = Some (A4 a d b c) ∧
  w_verts m (to_twin_edge w) = Some (A4 b a d c) ∧
  w_verts m (to_opp_edge w) = Some (A4 c d a b) ∧
  ∀ p, w_verts m (to_perm w p) = Some (reorder (A4 a b c d) (perm_digits p)).
Proof. exact (walker_moves m w a b c d). Qed.
Print Assumptions C08_moves_permute_vertices.

(** Every move stays in the same tet at a legal position, and the documented group laws hold. *)
Theorem C08_moves_stay_and_obey_laws w : pos_ok w →
  (∀ w', w' ∈ [to_nfe w; to_pfe w; to_nve w; to_pve w; to_twin_edge w; to_opp_edge w;
               to_canon_tet w; to_canon_tri w] ++ (to_perm w <$> [P3210; P2301; P1032; P0123; P2130;
               P3021; P0312; P1203; P1320; P0231; P3102; P2013]) →
     w_tet w' = w_tet w ∧ pos_ok w') ∧
  to_pfe (to_nfe w) = w ∧ to_nfe (to_pfe w) = w ∧ to_nfe (to_nfe (to_nfe w)) = w ∧
  to_pve (to_nve w) = w ∧ to_nve (to_pve w) = w ∧ to_nve (to_nve (to_nve w)) = w ∧
  to_twin_edge (to_twin_edge w) = w ∧ to_opp_edge (to_opp_edge w) = w ∧
  to_perm w P0123 = w.
Proof. exact (walker_laws w). Qed.
Print Assumptions C08_moves_stay_and_obey_laws.

(** The inverse table undoes the forward table: seen from position [a], position [b] of the same
    tet is at [perm_inv a b]; in particular [a] sees itself as the identity. *)
Theorem C08_inverse_table (vs : arr4 N) a b : a < 12 → b < 12 →
  perm_inv a a = 3 ∧ verts_at vs 3 = vs ∧ perm_fwd a (perm_inv a b) = b ∧
  verts_at (verts_at vs a) (perm_inv a b) = verts_at vs b.
Proof.
  intros Ha Hb. split; [exact (perm_inv_self a Ha)|]. split; [by destruct vs|]. split; [exact (perm_fwd_inv a b Ha Hb)|].
  revert b Hb. intros b Hb. do 12 (destruct a as [|a]; [do 12 (destruct b as [|b]; [reflexivity|]); lia|]). lia.
Qed.
Print Assumptions C08_inverse_table.

(** C09. Slot numbers of two legal positions of one tet are equal exactly when the positions
    report the same unordered pair of first two vertices. *)
Theorem C09_edge_slot_is_unordered_pair (vs : arr4 N) e e' :
  e < 12 → e' < 12 → NoDup (list4 vs) →
  (undir_idx e = undir_idx e' ↔
   same_pair (q0 (verts_at vs e)) (q1 (verts_at vs e)) (q0 (verts_at vs e')) (q1 (verts_at vs e'))).
Proof. exact (undir_idx_pair vs e e'). Qed.
Print Assumptions C09_edge_slot_is_unordered_pair.

(** Each of the six slots is the slot of the position given by [to_undir_edge], and [undir_edges]
    lists the slots of the six vertex pairs in the walker's own vertex order
    [cd, ab, bc, ad, bd, ac]. *)
Theorem C09_undir_edges_in_walker_order {V T} (m : mesh V T) w t :
  pos_ok w → tet_get m (w_tet w) = Some t → NoDup (list4 (t_vs t)) →
  (∀ i, i < 6 → ∃ w', to_undir_edge w i = Some w' ∧ w_tet w' = w_tet w ∧ pos_ok w' ∧
                      undir_edge m w' = Some (get6 (t_edges t) i)) ∧
  ∃ a b c d es, w_verts m w = Some (A4 a b c d) ∧ undir_edges m w = Some es ∧
    ∀ w', w_tet w' = w_tet w → pos_ok w' → ∀ x y, w_pair m w' = Some (x, y) →
      ∀ k, (same_pair x y c d ∧ k = 0) ∨ (same_pair x y a b ∧ k = 1) ∨ (same_pair x y b c ∧ k = 2) ∨
           (same_pair x y a d ∧ k = 3) ∨ (same_pair x y b d ∧ k = 4) ∨ (same_pair x y a c ∧ k = 5) →
      undir_edge m w' = es !! k.
Proof. exact (walker_undir_edges m w t). Qed.
Print Assumptions C09_undir_edges_in_walker_order.

(** C10. *)
Theorem C10_sorted_2 x y :
  [(sorted_2 (x, y)).1; (sorted_2 (x, y)).2] ≡ₚ [x; y] ∧
  ((sorted_2 (x, y)).1 <= (sorted_2 (x, y)).2)%N.
Proof. exact (sorted_2_spec x y). Qed.
Print Assumptions C10_sorted_2.

Theorem C10_sorted_3 x y z a b c : sorted_3 (x, y, z) = (a, b, c) →
  [a; b; c] ≡ₚ [x; y; z] ∧ (a <= b)%N ∧ (b <= c)%N.
Proof. exact (sorted_3_spec' x y z a b c). Qed.
Print Assumptions C10_sorted_3.

(** The result is one of the three rotations and starts with the least vertex; so inputs that
    are rotations of each other give the same result. *)
Theorem C10_even_sorted_3 x y z a b c : even_sorted_3 (x, y, z) = (a, b, c) →
  ((a, b, c) = (x, y, z) ∨ (a, b, c) = (y, z, x) ∨ (a, b, c) = (z, x, y)) ∧
  (x ≠ y → y ≠ z → x ≠ z → (a < b)%N ∧ (a < c)%N).
Proof. exact (even_sorted_3_spec' x y z a b c). Qed.
Print Assumptions C10_even_sorted_3.

Theorem C10_even_sorted_4 a :
  (∃ σ, even_perm σ ∧ even_sorted_4 a = reorder a σ) ∧
  (NoDup (list4 a) → ∀ b, even_sorted_4 a = even_sorted_4 b ↔ ∃ σ, even_perm σ ∧ b = reorder a σ).
Proof. exact (conj (even_sorted_4_even a) (λ H b, even_sorted_4_canonical a b H)). Qed.
Print Assumptions C10_even_sorted_4.

(** Without the distinctness hypothesis the result is not canonical. *)
Theorem C10_even_sorted_3_with_repeats_refuted :
  ∃ x y z, even_sorted_3 (x, y, z) ≠ even_sorted_3 (y, z, x).
Proof. exists 1%N, 0%N, 0%N. vm_compute. discriminate. Qed.
Print Assumptions C10_even_sorted_3_with_repeats_refuted.

(** C11. *)
Theorem C11_tri_key_iff_rotation x y z a b c : x ≠ y → y ≠ z → x ≠ z →
  tri_key (x, y, z) = tri_key (a, b, c) ↔
  (a, b, c) = (x, y, z) ∨ (a, b, c) = (y, z, x) ∨ (a, b, c) = (z, x, y).
Proof. exact (tri_key_eq x y z (a, b, c)). Qed.
Print Assumptions C11_tri_key_iff_rotation.

Theorem C11_tri_key_mirror_differs x y z : x ≠ y → y ≠ z → x ≠ z →
  tri_key (x, y, z) ≠ tri_key (y, x, z).
Proof. exact (tri_key_mirror x y z). Qed.
Print Assumptions C11_tri_key_mirror_differs.

(** A concrete mesh with five live tets: the hypotheses above are met. *)
Definition demo_pts : arr4 (pt * nat) :=
  A4 (Pt 0 0 0, 10) (Pt 0 0 1, 11) (Pt 0 1 0, 12) (Pt 1 0 0, 13).
Definition demo_mesh : option (mesh nat nat) :=
  mesh_new (λ _ _ _ _, true) (λ a _ _ _, a) demo_pts 0.
Example demo_walker_exists : ∃ m t, demo_mesh = Some m ∧ tet_get m 2 = Some t ∧
  NoDup (list4 (t_vs t)) ∧ w_verts m (Walker 2 8) = Some (A4 3%N GHOST 2%N 0%N) ∧
  w_verts m (to_nve (Walker 2 8)) = Some (A4 3 2 0 GHOST)%N ∧
  undir_edges m (Walker 2 8) = Some [1; 9; 8; 2; 6; 5]%N.
Proof.
  eexists _, _. split; [vm_compute; reflexivity|]. split; [vm_compute; reflexivity|].
  split; [apply NoDup4; vm_compute; repeat split; discriminate|]. vm_compute. done.
Qed.
Example demo_sorts : even_sorted_4 (A4 3 1 2 0)%N = (A4 0 1 3 2)%N ∧
  tri_key (5, 2, 9)%N = (2, 9, 5)%N ∧ tri_key (9, 5, 2)%N = (2, 9, 5)%N ∧ tri_key (2, 5, 9)%N = (2, 5, 9)%N.
Proof. vm_compute. done. Qed.
