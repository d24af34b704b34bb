(** Properties C28, C29, C31, C32, C43: the exact geometry of the predicates. *)
From Coq Require Import NArith ZArith Lia.
From stdpp Require Import base numbers list gmap option.
From Verif Require Import IdMapModel IdMapProofs IdMapMore WalkerModel WalkerSpec MeshModel MeshOps MeshSpec HistSpec GeoModel GeoSpec GeoProofs GeoMesh
  HistCheck Reach Volume PropMesh.
Local Open Scope Z_scope.

(** ** C28. [orient_3d]. *)
Theorem C28_exchanging_two_vertices_negates {V T} (f : N → N → N → N → arr4 N) (m : mesh V T) v0 v1 v2 v3 :
  (f = (λ a b c d, A4 b a c d) ∨ f = (λ a b c d, A4 c b a d) ∨ f = (λ a b c d, A4 d b c a) ∨
   f = (λ a b c d, A4 a c b d) ∨ f = (λ a b c d, A4 a d c b) ∨ f = (λ a b c d, A4 a b d c)) →
  let u := f v0 v1 v2 v3 in
  orient_3d m (q0 u) (q1 u) (q2 u) (q3 u) = Z.opp <$> orient_3d m v0 v1 v2 v3.
Proof. exact (o3_swap f m v0 v1 v2 v3). Qed.
Print Assumptions C28_exchanging_two_vertices_negates.

(** An even reordering is a product of two exchanges. *)
Theorem C28_even_reorderings_agree {V T} (f g : N → N → N → N → arr4 N) (m : mesh V T) v0 v1 v2 v3 :
  let exchange (h : N → N → N → N → arr4 N) := h = (λ a b c d, A4 b a c d) ∨ h = (λ a b c d, A4 c b a d) ∨ h = (λ a b c d, A4 d b c a) ∨
                    h = (λ a b c d, A4 a c b d) ∨ h = (λ a b c d, A4 a d c b) ∨ h = (λ a b c d, A4 a b d c) in
  exchange f → exchange g →
  let u := f v0 v1 v2 v3 in let u' := g (q0 u) (q1 u) (q2 u) (q3 u) in
  orient_3d m (q0 u') (q1 u') (q2 u') (q3 u') = orient_3d m v0 v1 v2 v3.
Proof.
  intros ex Hf Hg u u'. unfold u'. rewrite (o3_swap g m _ _ _ _ Hg). unfold u. rewrite (o3_swap f m _ _ _ _ Hf). apply opp_opp.
Qed.
Print Assumptions C28_even_reorderings_agree.

Theorem C28_repeated_vertex {V T} (m : mesh V T) v0 v1 v2 v3 :
  ¬ NoDup [v0; v1; v2; v3] → is_Some (orient_3d m v0 v1 v2 v3) → orient_3d m v0 v1 v2 v3 = Some 0.
Proof. exact (o3_repeat m v0 v1 v2 v3). Qed.
Print Assumptions C28_repeated_vertex.

(** Moving every vertex and the centre by the same vector changes nothing. *)
Theorem C28_translation {V T} (m m' : mesh V T) t v0 v1 v2 v3 :
  m_center m' = vadd (m_center m) t →
  (∀ v, v_pos <$> im_get (m_verts m') v = (λ p, vadd p t) <$> (v_pos <$> im_get (m_verts m) v)) →
  orient_3d m' v0 v1 v2 v3 = orient_3d m v0 v1 v2 v3.
Proof.
  intros Hc Hv. apply (o3_translate m m' t). intros v. unfold idx_ori. destruct (N.eqb v GHOST); [by rewrite Hc|apply Hv].
Qed.
Print Assumptions C28_translation.

(** The value is the one [tet_volume_x6] reports, whichever even order is used. *)
Theorem C28_agrees_with_volume {V T} (m : mesh V T) w a b c d x : valid m w → w_verts m w = Some (A4 a b c d) →
  tet_volume_x6 m (w_tet w) = Some (Some x) → orient_3d m a b c d = Some x.
Proof. exact (volume_walker m w a b c d x). Qed.
Print Assumptions C28_agrees_with_volume.

(** One ghost vertex: minus the test against the centre; so, across a triangle of a positive tet
    that has the centre strictly on its own side, the ghost tet is positive too. *)
Theorem C28_ghost {V T} (m : mesh V T) v0 v1 v2 p0 p1 p2 :
  idx_ori m v0 = Some p0 → idx_ori m v1 = Some p1 → idx_ori m v2 = Some p2 →
  orient_3d m v0 v1 v2 GHOST = Some (- orient p0 p1 p2 (m_center m)).
Proof. exact (o3_ghost m v0 v1 v2 p0 p1 p2). Qed.
Print Assumptions C28_ghost.

Theorem C28_ghost_neighbour_is_positive {V T} (m : mesh V T) v0 v1 v2 p0 p1 p2 :
  idx_ori m v0 = Some p0 → idx_ori m v1 = Some p1 → idx_ori m v2 = Some p2 →
  0 < orient p0 p1 p2 (m_center m) ↔ ∃ x, orient_3d m v1 v0 v2 GHOST = Some x ∧ 0 < x.
Proof.
  intros E0 E1 E2. rewrite (o3_ghost m v1 v0 v2 p1 p0 p2 E1 E0 E2). rewrite (orient_swap01 p1 p0).
  generalize (orient p0 p1 p2 (m_center m)). intros z. split.
  - intros H. eexists. split; [done|]. lia.
  - intros (x & [= <-] & H). lia.
Qed.
Print Assumptions C28_ghost_neighbour_is_positive.

Example C28_witness :
  let m := ex ex_ops3 in
  orient_3d m 4 2 1 0 = Some 16 ∧ orient_3d m 2 4 1 0 = Some (-16) ∧ orient_3d m 2 4 1 2 = Some 0 ∧
  orient_3d m 2 1 3 GHOST = Some (-16) ∧ orient_3d m 1 2 3 GHOST = Some 16 ∧
  tet_volume_x6 m 7 = Some (Some 16) ∧ w_verts m (Walker 7 0) = Some (A4 4 2 1 0)%N.
Proof. vm_compute. done. Qed.

(** ** C29. [in_sphere]. *)
Theorem C29_exchanging_two_vertices_negates {V T} (f : N → N → N → N → arr4 N) (m : mesh V T) v0 v1 v2 v3 v4 :
  NoDup [v0; v1; v2; v3] →
  (f = (λ a b c d, A4 b a c d) ∨ f = (λ a b c d, A4 c b a d) ∨ f = (λ a b c d, A4 d b c a) ∨
   f = (λ a b c d, A4 a c b d) ∨ f = (λ a b c d, A4 a d c b) ∨ f = (λ a b c d, A4 a b d c)) →
  let u := f v0 v1 v2 v3 in
  in_sphere m (q0 u) (q1 u) (q2 u) (q3 u) v4 = Z.opp <$> in_sphere m v0 v1 v2 v3 v4.
Proof. exact (is_swap f m v0 v1 v2 v3 v4). Qed.
Print Assumptions C29_exchanging_two_vertices_negates.

Theorem C29_walker_positions_agree {V T} (m : mesh V T) w w' a b c d a' b' c' d' v : mesh_ok m →
  valid m w → valid m w' → w_tet w = w_tet w' → w_verts m w = Some (A4 a b c d) → w_verts m w' = Some (A4 a' b' c' d') →
  in_sphere m a b c d v = in_sphere m a' b' c' d' v.
Proof.
  intros Hok Hw Hw' Ht Ev Ev'. pose proof (ok_distinct m Hok _ _ _ _ _ Hw Ev) as Hn. pose proof Hw as [[t Et] He]. pose proof Hw' as [_ He'].
  assert (NoDup (list4 (t_vs t))) as Hn0.
  { assert (valid m (Walker (w_tet w) 3)) as Hc by (split; [eauto|cbn; lia]).
    pose proof (wverts_at m (Walker (w_tet w) 3) t Et) as Ec. cbn in Ec.
    destruct (t_vs t) as [x0 x1 x2 x3]. exact (ok_distinct m Hok _ _ _ _ _ Hc Ec). }
  rewrite (wverts_at m w t Et) in Ev. rewrite Ht in Et. rewrite (wverts_at m w' t Et) in Ev'.
  pose proof (is_even m (t_vs t) (w_edge w) v Hn0 He) as E1. pose proof (is_even m (t_vs t) (w_edge w') v Hn0 He') as E2. cbv zeta in E1, E2.
  apply (inj Some) in Ev, Ev'. rewrite Ev in E1. rewrite Ev' in E2. cbn [q0 q1 q2 q3] in E1, E2. congruence.
Qed.
Print Assumptions C29_walker_positions_agree.

(** A positive tet has a circumscribed sphere, and the test is positive exactly inside every (that
    is: the) sphere through its corners. *)
Theorem C29_circumsphere {V T} (m : mesh V T) v0 v1 v2 v3 v4 x o : GHOST ∉ [v0; v1; v2; v3] →
  in_sphere m v0 v1 v2 v3 v4 = Some x → orient_3d m v0 v1 v2 v3 = Some o → 0 < o →
  ∃ p0 p1 p2 p3 p4, idx_ori m v0 = Some p0 ∧ idx_ori m v1 = Some p1 ∧ idx_ori m v2 = Some p2 ∧ idx_ori m v3 = Some p3 ∧
    v_pos <$> im_get (m_verts m) v4 = Some p4 ∧
    (∃ k c r2, 0 < k ∧ on_sphere k c r2 p0 ∧ on_sphere k c r2 p1 ∧ on_sphere k c r2 p2 ∧ on_sphere k c r2 p3) ∧
    ∀ k c r2, 0 < k → on_sphere k c r2 p0 → on_sphere k c r2 p1 → on_sphere k c r2 p2 → on_sphere k c r2 p3 →
      (0 < x ↔ in_ball k c r2 p4) ∧ (x = 0 ↔ on_sphere k c r2 p4).
Proof. exact (is_solid m v0 v1 v2 v3 v4 x o). Qed.
Print Assumptions C29_circumsphere.

(** With the ghost vertex in any slot of a positive tet: the test is positive exactly when the
    plane of the solid triangle strictly separates the point from the centre. *)
Theorem C29_ghost {V T} (m : mesh V T) v0 v1 v2 v4 e x o p0 p1 p2 p4 : NoDup [v0; v1; v2; GHOST] → (e < 12)%nat →
  idx_ori m v0 = Some p0 → idx_ori m v1 = Some p1 → idx_ori m v2 = Some p2 → v_pos <$> im_get (m_verts m) v4 = Some p4 →
  let u := verts_at (A4 v0 v1 v2 GHOST) e in
  in_sphere m (q0 u) (q1 u) (q2 u) (q3 u) v4 = Some x → orient_3d m (q0 u) (q1 u) (q2 u) (q3 u) = Some o → 0 < o →
  (0 < x ↔ separates p0 p1 p2 p4 (m_center m)) ∧ x = orient p0 p1 p2 p4.
Proof. exact (is_ghost m v0 v1 v2 v4 e x o p0 p1 p2 p4). Qed.
Print Assumptions C29_ghost.

Example C29_witness :
  let m := ex ex_ops3 in
  orient_3d m 0 1 2 3 = Some 64 ∧ in_sphere m 0 1 2 3 4 = Some 576 ∧ in_sphere m 0 1 2 3 5 = Some (-384) ∧
  in_sphere m 1 0 2 3 4 = Some (-576) ∧
  orient_3d m 1 2 3 GHOST = Some 16 ∧ in_sphere m 1 2 3 GHOST 5 = Some 128 ∧ in_sphere m 1 2 3 GHOST 4 = Some (-16) ∧
  in_sphere m GHOST 3 2 1 5 = Some 128.
Proof. vm_compute. done. Qed.

(** ** C31. Volume. *)
(** For every consistent mesh and every admissible sequence of operations (in particular each single
    flip): the difference between the solid volume and the volume under the outer triangles does not
    change, and if the ghost tets stay the same, the solid volume does not change. *)
Theorem C31_operations_conserve_volume {V T} (m : mesh V T) os m' : mesh_ok m → all_admissible m os → run_ops m os = Some m' →
  solid_volume_x6 m' - hull_volume_x6 m' = solid_volume_x6 m - hull_volume_x6 m ∧
  (same_ghost_tets m m' → solid_volume_x6 m' = solid_volume_x6 m).
Proof. exact (ops_volume m os m'). Qed.
Print Assumptions C31_operations_conserve_volume.

(** So in every reachable mesh the signed volumes of the solid tets add up to the volume enclosed
    by the outer triangles: the tets fill the hull without gaps or overlaps, counted with sign. *)
Theorem C31_reachable_meshes_fill_their_hull {V T} (m : mesh V T) : reachable m → solid_volume_x6 m = hull_volume_x6 m.
Proof. exact (reachable_volume m). Qed.
Print Assumptions C31_reachable_meshes_fill_their_hull.

Definition ghosts (m : mesh Z unit) : list (N * arr4 N) :=
  flat_map (λ id, match tet_get m id with Some t => if has_ghost (list4 (t_vs t)) then [(id, t_vs t)] else [] | None => [] end)
    (im_keys (m_tets m)).
Lemma ghosts_spec m : mesh_ok m → ∀ id vs, GHOST ∈ list4 vs → (t_vs <$> tet_get m id = Some vs ↔ (id, vs) ∈ ghosts m).
Proof.
  intros Hok id vs Hg. unfold ghosts. rewrite elem_of_list_In, in_flat_map. split.
  - intros H. destruct (tet_get m id) as [t|] eqn:E; [|done]. injection H as <-. exists id. rewrite E, (proj2 (has_ghost_in _) Hg).
    split; [|by left]. apply elem_of_list_In, elem_of_im_keys; [by apply ok_ids_tets|]. unfold tet_get in E. eauto.
  - intros (x & _ & Hx). destruct (tet_get m x) as [t|] eqn:E; [|done]. destruct (has_ghost _); [|done]. destruct Hx as [[= <- <-]|[]]. by rewrite E.
Qed.
Definition ex_ops5 : list (op Z) :=
  [OInsert (walker_from_tet_id 0) (Pt 1 1 1) 14; OInsert (walker_from_tet_id 0) (Pt 1 2 2) 15; OFlip23 (Walker 8 1)].
Lemma ex5_reachable : reachable (ex ex_ops5). Proof. apply ex_reachable. vm_compute. reflexivity. Qed.

Example C31_witness :
  (* inside the hull: insertions and a flip, same ghost tets, same solid volume *)
  all_admissibleb ex_new ex_ops5 = true ∧ same_ghost_tets (ex []) (ex ex_ops5) ∧
  num_tets (ex ex_ops5) = Some 12%N ∧ solid_volume_x6 (ex []) = 64 ∧ solid_volume_x6 (ex ex_ops5) = 64 ∧
  (* insertion in a ghost tet makes both grow *)
  solid_volume_x6 (ex ex_ops2) = 48 ∧ hull_volume_x6 (ex ex_ops2) = 48 ∧
  solid_volume_x6 (ex ex_ops3) = 100 ∧ hull_volume_x6 (ex ex_ops3) = 100.
Proof.
  split; [vm_compute; reflexivity|]. split.
  - assert (reachable (ex [])) as Hr by (apply ex_reachable; vm_compute; reflexivity).
    intros id vs Hg. rewrite (ghosts_spec _ (reachable_ok _ Hr) id vs Hg), (ghosts_spec _ (reachable_ok _ ex5_reachable) id vs Hg).
    assert (ghosts (ex []) = ghosts (ex ex_ops5)) as -> by (vm_compute; reflexivity). reflexivity.
  - vm_compute. repeat split.
Qed.

(** ** C32. Triangles and segments, points and tets. *)
Theorem C32_triangle_meets_segment {V T} (m : mesh V T) v0 v1 v2 v3 v4 p0 p1 p2 p3 p4 r : GHOST ∉ [v0; v1; v2; v3; v4] →
  idx_ori m v0 = Some p0 → idx_ori m v1 = Some p1 → idx_ori m v2 = Some p2 → idx_ori m v3 = Some p3 → idx_ori m v4 = Some p4 →
  tri_intersects_edge m v0 v1 v2 v3 v4 = Some r →
  r = true ↔ open_tri_meets_open_segment p0 p1 p2 p3 p4 ∧ orient p0 p1 p2 p3 ≠ 0.
Proof. exact (tie_solid m v0 v1 v2 v3 v4 p0 p1 p2 p3 p4 r). Qed.
Print Assumptions C32_triangle_meets_segment.

(** A ghost end: the segment becomes the ray that leaves the solid end away from the centre. *)
Theorem C32_triangle_meets_ghost_edge {V T} (m : mesh V T) v0 v1 v2 v3 p0 p1 p2 p3 r : GHOST ∉ [v0; v1; v2; v3] →
  idx_ori m v0 = Some p0 → idx_ori m v1 = Some p1 → idx_ori m v2 = Some p2 → idx_ori m v3 = Some p3 →
  tri_intersects_edge m v0 v1 v2 v3 GHOST = Some r →
  r = true ↔ open_tri_meets_open_ray p0 p1 p2 p3 (m_center m) ∧ orient p0 p1 p2 p3 ≠ 0.
Proof. exact (tie_ghost_end m v0 v1 v2 v3 p0 p1 p2 p3 r). Qed.
Print Assumptions C32_triangle_meets_ghost_edge.

Theorem C32_segment_direction_is_irrelevant {V T} (m : mesh V T) v0 v1 v2 v3 v4 :
  tri_intersects_edge m v0 v1 v2 v4 v3 = tri_intersects_edge m v0 v1 v2 v3 v4.
Proof. exact (tie_sym m v0 v1 v2 v3 v4). Qed.
Print Assumptions C32_segment_direction_is_irrelevant.

(** The variant with simulation of simplicity: with any tie-breaking test that never contradicts the
    exact one it reports every proper crossing, and nothing else unless there is a degeneracy. *)
Theorem C32_triangle_meets_segment_sim {V T} sim (m : mesh V T) v0 v1 v2 v3 v4 p0 p1 p2 p3 p4 r : sim_exact sim →
  GHOST ∉ [v0; v1; v2; v3; v4] →
  idx_ori m v0 = Some p0 → idx_ori m v1 = Some p1 → idx_ori m v2 = Some p2 → idx_ori m v3 = Some p3 → idx_ori m v4 = Some p4 →
  tri_intersects_edge_sim sim m v0 v1 v2 v3 v4 = Some r →
  (open_tri_meets_open_segment p0 p1 p2 p3 p4 ∧ orient p0 p1 p2 p3 ≠ 0 → r = true) ∧
  (Forall (λ x, x ≠ 0) [orient p1 p2 p3 p4; orient p2 p0 p3 p4; orient p0 p1 p3 p4; orient p0 p1 p2 p4; orient p0 p1 p2 p3] →
   r = true → open_tri_meets_open_segment p0 p1 p2 p3 p4).
Proof. exact (tie_sim sim m v0 v1 v2 v3 v4 p0 p1 p2 p3 p4 r). Qed.
Print Assumptions C32_triangle_meets_segment_sim.

Theorem C32_point_in_tet {V T} sim (m : mesh V T) v0 v1 v2 v3 v4 p0 p1 p2 p3 p4 r : sim_exact sim → GHOST ∉ [v0; v1; v2; v3; v4] →
  idx_ori m v0 = Some p0 → idx_ori m v1 = Some p1 → idx_ori m v2 = Some p2 → idx_ori m v3 = Some p3 → idx_ori m v4 = Some p4 →
  0 < orient p0 p1 p2 p3 → tet_intersects_vertex sim m v0 v1 v2 v3 v4 = Some r →
  (in_open_tet p0 p1 p2 p3 p4 → r = true) ∧ (r = true → in_closed_tet p0 p1 p2 p3 p4).
Proof. exact (tiv_spec sim m v0 v1 v2 v3 v4 p0 p1 p2 p3 p4 r). Qed.
Print Assumptions C32_point_in_tet.

(** A tie-breaking test that never contradicts the exact one: ties count as positive. *)
Definition sim_ids (a b c d : N * pt) : bool := 0 <=? orient a.2 b.2 c.2 d.2.
Definition ex_ops6 : list (op Z) :=
  [OInsert (walker_from_tet_id 0) (Pt (-9) (-3) (-3)) 14; OInsert (walker_from_tet_id 0) (Pt (-3) (-9) (-3)) 15;
   OInsert (walker_from_tet_id 0) (Pt (-3) (-3) (-9)) 16].
Example C32_witness :
  all_admissibleb ex_new ex_ops6 = true ∧ tri_intersects_edge (ex ex_ops6) 4 5 6 0 GHOST = Some true ∧
  tri_intersects_edge (ex ex_ops6) 4 5 6 GHOST 1 = Some false ∧
  let m := ex ex_ops3 in
  tri_intersects_edge m 1 2 3 0 5 = Some true ∧ tri_intersects_edge m 1 2 3 5 0 = Some true ∧
  tri_intersects_edge m 1 2 3 0 4 = Some false ∧ tri_intersects_edge m 1 2 4 0 GHOST = Some false ∧
  tri_intersects_edge m 0 1 2 4 GHOST = Some false ∧ tri_intersects_edge m 1 2 3 0 GHOST = Some false ∧
  sim_exact sim_ids ∧ tri_intersects_edge_sim sim_ids m 1 2 3 0 5 = Some true ∧ tri_intersects_edge_sim sim_ids m 1 2 3 0 4 = Some false ∧
  tet_intersects_vertex sim_ids m 0 1 2 3 4 = Some true ∧ tet_intersects_vertex sim_ids m 0 1 2 3 5 = Some false.
Proof.
  cbv zeta. do 9 (split; [vm_compute; reflexivity|]). split; [|vm_compute; repeat split; reflexivity].
  intros v0 v1 v2 v3 p0 p1 p2 p3. unfold sim_ids. cbn [snd]. generalize (orient p0 p1 p2 p3). intros z. split; intros H.
  - apply Z.leb_le. lia.
  - apply Z.leb_gt. lia.
Qed.

(** ** C43. Volume and centroid. *)
Theorem C43_volume_and_centroid {V T} (m : mesh V T) id t : mesh_ok m → tet_get m id = Some t →
  (GHOST ∈ list4 (t_vs t) ∧ tet_volume_x6 m id = Some None ∧ tet_centroid_x4 m id = Some None) ∨
  (GHOST ∉ list4 (t_vs t) ∧ ∃ p0 p1 p2 p3,
     idx_ori m (q0 (t_vs t)) = Some p0 ∧ idx_ori m (q1 (t_vs t)) = Some p1 ∧
     idx_ori m (q2 (t_vs t)) = Some p2 ∧ idx_ori m (q3 (t_vs t)) = Some p3 ∧
     tet_volume_x6 m id = Some (Some (orient p0 p1 p2 p3)) ∧
     tet_centroid_x4 m id = Some (Some (vadd (vadd (vadd p0 p1) p2) p3))).
Proof. exact (volume_total m id t). Qed.
Print Assumptions C43_volume_and_centroid.

(** Swapping two corners of a tet negates its volume. *)
Theorem C43_volume_changes_sign {V T} (f : N → N → N → N → arr4 N) (m m' : mesh V T) id t t' :
  (f = (λ a b c d, A4 b a c d) ∨ f = (λ a b c d, A4 c b a d) ∨ f = (λ a b c d, A4 d b c a) ∨
   f = (λ a b c d, A4 a c b d) ∨ f = (λ a b c d, A4 a d c b) ∨ f = (λ a b c d, A4 a b d c)) →
  (∀ v, idx_ori m' v = idx_ori m v) → tet_get m id = Some t → tet_get m' id = Some t' →
  t_vs t' = f (q0 (t_vs t)) (q1 (t_vs t)) (q2 (t_vs t)) (q3 (t_vs t)) →
  tet_volume_x6 m' id = (λ o : option Z, Z.opp <$> o) <$> tet_volume_x6 m id.
Proof. exact (volume_sign f m m' id t t'). Qed.
Print Assumptions C43_volume_changes_sign.

Example C43_witness :
  let m := ex ex_ops3 in
  tet_volume_x6 m 11 = Some (Some 52) ∧ tet_centroid_x4 m 11 = Some (Some (Pt 7 6 10)) ∧
  tet_volume_x6 m 10 = Some None ∧ tet_centroid_x4 m 10 = Some None ∧ mesh_ok m.
Proof. cbv zeta. do 4 (split; [vm_compute; reflexivity|]). exact (reachable_ok _ ex3_reachable). Qed.
