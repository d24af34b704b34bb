(** Properties C12-C22: construction, flips, histories, locks, lookups. *)
From stdpp Require Import base numbers list gmap option relations.
From Coq Require Import NArith ZArith Lia.
From Verif Require Import IdMapModel WalkerModel WalkerSpec MeshModel MeshOps MeshSpec FlipSpec GeoModel HistSpec
  MeshCheck HistCheck NewMesh Flip14Ok Flip23Ok Flip32Ok Flip44Ok MeshOpsOk Integrity History FlipMore Reach.
Local Open Scope nat_scope.

(** ** A concrete family of meshes: the points, the exact orientation test, the centroid. *)
Definition sim_z (a b c d : pt) : bool := (0 <? orient a b c d)%Z.
Definition ctr_z (a b c d : pt) : pt :=
  Pt ((px a + px b + px c + px d) / 4) ((py a + py b + py c + py d) / 4) ((pz a + pz b + pz c + pz d) / 4).
Definition ex_points : arr4 (pt * Z) :=
  (A4 (Pt 0 0 0, 10) (Pt 0 0 4, 11) (Pt 0 4 0, 12) (Pt 4 0 0, 13))%Z.
Definition ex_new : mesh Z unit := default mesh_empty (mesh_new sim_z ctr_z ex_points ()).
Definition ex_ops1 : list (op Z) := [OTrack true; OInsert (walker_from_tet_id 0) (Pt 1 1 1) 14%Z].
Definition ex_ops2 : list (op Z) := ex_ops1 ++ [OFlip23 (Walker 0 0)].
Definition ex_ops3 : list (op Z) := ex_ops2 ++ [OInsert (walker_from_tet_id 1) (Pt 2 5 5) 15%Z].
Definition ex_ops4 : list (op Z) :=
  ex_ops3 ++ [OLockTri (Walker 7 4) true; OLockEdge (Walker 7 4) true; OFlip44 (Walker 0 1)].
Definition ex (os : list (op Z)) : mesh Z unit := default mesh_empty (run_ops ex_new os).

Lemma ex_reachable os : all_admissibleb ex_new os = true → reachable (ex os).
Proof.
  intros H. destruct (new_facts sim_z ctr_z ex_points ()) as (m0 & E & _).
  assert (ex_new = m0) as En by (unfold ex_new; by rewrite E).
  apply all_admissibleb_spec in H. rewrite En in H.
  destruct (history_ok _ _ _ _ os m0 E H) as (m & Er & _).
  exists sim_z, ctr_z, ex_points, (), m0, os. split; [done|]. split; [done|].
  unfold ex. rewrite En, Er. done.
Qed.
Lemma ex1_reachable : reachable (ex ex_ops1). Proof. apply ex_reachable. vm_compute. reflexivity. Qed.
Lemma ex2_reachable : reachable (ex ex_ops2). Proof. apply ex_reachable. vm_compute. reflexivity. Qed.
Lemma ex3_reachable : reachable (ex ex_ops3). Proof. apply ex_reachable. vm_compute. reflexivity. Qed.
Lemma ex4_reachable : reachable (ex ex_ops4). Proof. apply ex_reachable. vm_compute. reflexivity. Qed.

(** ** C12. A new mesh. *)
Theorem C12_new_mesh {V T} sim ctr (ps : arr4 (pt * V)) (d : T) :
  let o := sim (q0 ps).1 (q1 ps).1 (q2 ps).1 (q3 ps).1 in
  ∃ m, mesh_new sim ctr ps d = Some m ∧ mesh_ok m ∧ assert_integrity None m = true ∧
    num_vertices m = Some 4%N ∧ num_tets m = Some 5%N ∧
    (∀ i, i < 4 → (λ vt, (v_pos vt, v_val vt)) <$> im_get (m_verts m) (N.of_nat i) = Some (get4 ps i)) ∧
    t_vs <$> tet_get m 0 = Some (if o then A4 0 1 2 3 else A4 0 1 3 2)%N ∧
    (∀ id t, tet_get m id = Some t → GHOST ∈ list4 (t_vs t) ↔ id ≠ 0%N) ∧
    (∀ t, ¬ locked_tri m t) ∧ (∀ a b, ¬ locked_edge m a b) ∧ m_track m = false.
Proof.
  intros o. destruct (new_facts sim ctr ps d) as (m & E & Hok & Hc & Hp & _). exists m.
  split; [exact E|]. split; [exact Hok|]. split; [exact (new_integrity _ _ _ _ _ E)|].
  destruct (new_unpack _ _ Hok Hc) as (H1 & H2 & Hids & T0 & (T1 & T2 & T3 & T4) & H5 & H6 & _ & H7 & _).
  split; [exact H1|]. split; [exact H2|]. split; [exact Hp|]. split; [exact T0|].
  split; [|split; [exact H5|]; split; [exact H6|exact H7]].
  intros id t Ht. assert (id ∈ [0; 1; 2; 3; 4]%N) as Hid by (apply Hids; eauto).
  rewrite !elem_of_cons, elem_of_nil in Hid. fold o in T0, T1, T2, T3, T4.
  destruct Hid as [->|[->|[->|[->|[->|[]]]]]];
    first [rewrite Ht in T0; cbn in T0; apply (inj Some) in T0; rewrite T0 |
           rewrite Ht in T1; cbn in T1; apply (inj Some) in T1; rewrite T1 |
           rewrite Ht in T2; cbn in T2; apply (inj Some) in T2; rewrite T2 |
           rewrite Ht in T3; cbn in T3; apply (inj Some) in T3; rewrite T3 |
           rewrite Ht in T4; cbn in T4; apply (inj Some) in T4; rewrite T4];
    destruct o; unfold list4; cbn [q0 q1 q2 q3]; rewrite !elem_of_cons, elem_of_nil;
    unfold GHOST, invalid_id; split; try lia; tauto.
Qed.
Print Assumptions C12_new_mesh.

(** Affinely independent points, with an orientation test that agrees with the exact sign: the
    solid tet is positive; with the exact centroid as the mesh centre, the ghost tets are too, and
    the integrity check including its orientation test succeeds. *)
Theorem C12_new_mesh_is_positive {V T} sim ctr (ps : arr4 (pt * V)) (d : T) m :
  let p i := (get4 ps i).1 in
  mesh_new sim ctr ps d = Some m →
  (orient (p 0%nat) (p 1%nat) (p 2%nat) (p 3%nat) ≠ 0)%Z →
  (sim (p 0) (p 1) (p 2) (p 3) = true ↔ (0 < orient (p 0%nat) (p 1%nat) (p 2%nat) (p 3%nat))%Z) →
  (∀ t, tet_get m 0 = Some t → positive m (t_vs t) = true) ∧
  (vadd (vadd (vadd (p 0) (p 1)) (p 2)) (p 3) = Pt (4 * px (m_center m)) (4 * py (m_center m)) (4 * pz (m_center m)) →
   (∀ id t, tet_get m id = Some t → positive m (t_vs t) = true) ∧
   assert_integrity (Some (positive m)) m = true).
Proof. intros p E H1 H2. exact (proj2 (new_positive sim ctr ps d m E H1 H2)). Qed.
Print Assumptions C12_new_mesh_is_positive.

Example C12_witness :
  mesh_new sim_z ctr_z ex_points () = Some ex_new ∧
  orient (Pt 0 0 0) (Pt 0 0 4) (Pt 0 4 0) (Pt 4 0 0) = 64%Z ∧
  vadd (vadd (vadd (Pt 0 0 0) (Pt 0 0 4)) (Pt 0 4 0)) (Pt 4 0 0) =
    Pt (4 * px (m_center ex_new)) (4 * py (m_center ex_new)) (4 * pz (m_center ex_new)).
Proof.
  split; [|split; vm_compute; reflexivity].
  destruct (new_facts sim_z ctr_z ex_points ()) as (m0 & E & _). unfold ex_new. by rewrite E.
Qed.

(** ** C13. Adjacency in every reachable mesh. *)
Theorem C13_adjacency_is_symmetric {V T} (m : mesh V T) w a b c d :
  reachable m → valid m w → w_verts m w = Some (A4 a b c d) →
  ∃ w' x, to_adj m w = Some w' ∧ valid m w' ∧ w_verts m w' = Some (A4 b a c x) ∧
    to_adj m w' = Some w ∧ w_tet w' ≠ w_tet w.
Proof. intros Hr. exact (adj_spec m w a b c d (reachable_ok m Hr)). Qed.
Print Assumptions C13_adjacency_is_symmetric.

Theorem C13_stored_walkers_are_live {V T} (m : mesh V T) id t i :
  reachable m → tet_get m id = Some t → i < 4 → valid m (get4 (t_opp t) i).
Proof. intros Hr. exact (stored_valid m id t i (reachable_ok m Hr)). Qed.
Print Assumptions C13_stored_walkers_are_live.

Example C13_witness : reachable (ex ex_ops4) ∧ num_tets (ex ex_ops4) = Some 12%N ∧
  w_verts (ex ex_ops4) (Walker 7 5) = Some (A4 4 0 2 1)%N.
Proof. split; [exact ex4_reachable|]. vm_compute. split; reflexivity. Qed.

(** ** C14. The 1-to-4 flip. *)
Theorem C14_flip14 {V T} (m : mesh V T) w v :
  mesh_ok m → valid m w → is_Some (im_get (m_verts m) v) → ¬ attached m v → id_room m 3 4 →
  ∃ m' ws, flip14_unchecked m w v = Some (m', ws) ∧ flip14_spec m w v m' ws ∧
    (canonical_start m w → mesh_ok m').
Proof.
  intros H1 H2 H3 H4 H5. destruct (flip14_step m w v H1 H2 H3 H4 H5) as (m' & ws & E & Hs & Hok).
  exists m', ws. split; [exact E|]. split; [exact Hs|]. intros Hc. apply Hok. rewrite Hc.
  unfold w_first, walker_from_tet_id. cbn [w_tet w_edge]. by destruct (tet_get m (w_tet w)).
Qed.
Print Assumptions C14_flip14.

(** ** C15. The 2-to-3 flip. *)
Theorem C15_flip23 {V T} (m : mesh V T) w other a b c d e :
  mesh_ok m → valid m w → w_verts m w = Some (A4 a b c d) → to_adj m w = Some other →
  w_fourth m other = Some e → d ≠ e → ¬ joined m d e → id_room m 1 1 →
  ∃ m' ws id2, flip23_unchecked m w = Some (m', ws) ∧ flip23_spec m w m' ws a b c d e other id2 ∧ mesh_ok m'.
Proof. exact (flip23_step m w other a b c d e). Qed.
Print Assumptions C15_flip23.

(** ** C16. The 3-to-2 flip. *)
Theorem C16_flip32 {V T} (m : mesh V T) w other1 other2 p q x y z :
  mesh_ok m → valid m w → w_verts m w = Some (A4 p q x y) → ring_next m w = Some other1 →
  w_fourth m other1 = Some z → ring_next m other1 = Some other2 → ring_next m other2 = Some w →
  ¬ has_tri m x y z →
  ∃ m' ws, flip32_unchecked m w = Some (m', ws) ∧ flip32_spec m w m' ws p q x y z other1 other2 ∧ mesh_ok m'.
Proof. exact (flip32_step m w other1 other2 p q x y z). Qed.
Print Assumptions C16_flip32.

(** ** C17. The 4-to-4 flip. *)
Theorem C17_flip44 {V T} (m : mesh V T) w r1 r2 r3 p q x y z :
  mesh_ok m → valid m w → w_verts m w = Some (A4 p q x y) →
  ring_next m w = Some r1 → ring_next m r1 = Some r2 → ring_next m r2 = Some r3 → ring_next m r3 = Some w →
  r2 ≠ w → w_fourth m r1 = Some z → ¬ joined m x z → id_room m 1 1 →
  ∃ m' ws u, flip44_unchecked m w = Some (m', ws) ∧ flip44_spec m w m' ws p q x y z u r1 r2 r3 ∧ mesh_ok m'.
Proof. exact (flip44_step m w r1 r2 r3 p q x y z). Qed.
Print Assumptions C17_flip44.

Example flips_witness :
  admissibleb ex_new (OInsert (walker_from_tet_id 0) (Pt 1 1 1) 14%Z) = true ∧
  admissibleb (ex ex_ops1) (OFlip23 (Walker 0 0)) = true ∧
  admissibleb (ex ex_ops2) (OFlip32 (Walker 0 0)) = true ∧
  admissibleb (ex ex_ops3) (OFlip44 (Walker 0 1)) = true.
Proof. vm_compute. done. Qed.

(** The doc comments do not mention these requirements; without them the flips break the mesh. *)
Theorem C14_flip14_from_any_walker_refuted :
  ∃ (m : mesh Z unit) w v m' ws, reachable m ∧ valid m w ∧ is_Some (im_get (m_verts m) v) ∧ ¬ attached m v ∧
    id_room m 3 4 ∧ flip14_unchecked m w v = Some (m', ws) ∧ assert_integrity None m' = false ∧
    ∃ u, walker_from_vertex m' v = Some u ∧ w_first m' u ≠ Some v.
Proof.
  assert (all_admissibleb ex_new (ex_ops1 ++ [OAddVertex (Pt 2 5 5) 15%Z]) = true) as Ha by (vm_compute; reflexivity).
  set (m := ex (ex_ops1 ++ [OAddVertex (Pt 2 5 5) 15%Z])).
  assert (match flip14_unchecked m (Walker 0 0) 5 with
          | Some (m', ws) => negb (assert_integrity None m') &&
              match walker_from_vertex m' 5%N with Some u => negb (eqb (w_first m' u) (Some 5%N)) | None => false end
          | None => false end = true) as H by (vm_compute; reflexivity).
  destruct (flip14_unchecked m (Walker 0 0) 5) as [[m' ws]|] eqn:E; [|discriminate H].
  exists m, (Walker 0 0), 5%N, m', ws. split; [exact (ex_reachable _ Ha)|].
  split; [apply validb_spec; vm_compute; reflexivity|]. split; [apply someb_spec; vm_compute; reflexivity|].
  split; [apply (negb_iff _ _ (attachedb_spec m 5)); vm_compute; reflexivity|].
  split; [split; vm_compute; discriminate|]. split; [exact E|].
  apply andb_true_iff in H as [H1 H2]. split; [by apply negb_true_iff|].
  destruct (walker_from_vertex m' 5) as [u|]; [|discriminate H2]. exists u. split; [done|].
  apply (negb_iff _ _ (eqb_spec (w_first m' u) (Some 5%N)) H2).
Qed.
Print Assumptions C14_flip14_from_any_walker_refuted.

Theorem C15_flip23_on_joined_vertices_refuted :
  ∃ (m : mesh Z unit) w d e other m' ws, reachable m ∧ valid m w ∧ to_adj m w = Some other ∧
    w_fourth m w = Some d ∧ w_fourth m other = Some e ∧ d ≠ e ∧ joined m d e ∧ id_room m 1 1 ∧
    flip23_unchecked m w = Some (m', ws) ∧ assert_integrity None m' = false.
Proof.
  set (m := ex ex_ops1).
  assert (match flip23_unchecked m (Walker 0 1), to_adj m (Walker 0 1) with
          | Some (m', ws), Some o => negb (assert_integrity None m') &&
              match w_fourth m (Walker 0 1), w_fourth m o with
              | Some d, Some e => negb (eqb d e) && joinedb m d e | _, _ => false end
          | _, _ => false end = true) as H by (vm_compute; reflexivity).
  destruct (flip23_unchecked m (Walker 0 1)) as [[m' ws]|] eqn:E; [|discriminate H].
  destruct (to_adj m (Walker 0 1)) as [o|] eqn:Eo; [|discriminate H].
  apply andb_true_iff in H as [H1 H2].
  destruct (w_fourth m (Walker 0 1)) as [d|] eqn:Ed; [|discriminate H2].
  destruct (w_fourth m o) as [e|] eqn:Ee; [|discriminate H2]. apply andb_true_iff in H2 as [H2 H3].
  exists m, (Walker 0 1), d, e, o, m', ws. split; [exact ex1_reachable|].
  split; [apply validb_spec; vm_compute; reflexivity|]. do 3 (split; [done|]).
  split; [apply (negb_iff _ _ (eqb_spec d e) H2)|]. split; [by apply joinedb_spec|].
  split; [split; vm_compute; discriminate|]. split; [exact E|]. by apply negb_true_iff.
Qed.
Print Assumptions C15_flip23_on_joined_vertices_refuted.

Theorem C16_flip32_on_existing_triangle_refuted :
  ∃ (m : mesh Z unit) w m' ws, reachable m ∧ valid m w ∧ ring3 m w ∧
    flip32_unchecked m w = Some (m', ws) ∧
    (∃ u u' t, valid m' u ∧ valid m' u' ∧ u ≠ u' ∧ w_tri m' u = Some t ∧ w_tri m' u' = Some t).
Proof.
  set (m := ex ex_ops3).
  assert (match flip32_unchecked m (Walker 11 0) with
          | Some (m', ws) => any (walkers m') (λ u, any (walkers m') (λ u', negb (eqb u u') && someb (w_tri m' u) && eqb (w_tri m' u) (w_tri m' u')))
          | _ => false end = true) as H by (vm_compute; reflexivity).
  destruct (flip32_unchecked m (Walker 11 0)) as [[m' ws]|] eqn:E; [|discriminate H].
  exists m, (Walker 11 0), m', ws. split; [exact ex3_reachable|].
  split; [apply validb_spec; vm_compute; reflexivity|].
  split; [apply ring3b_spec; vm_compute; reflexivity|]. split; [exact E|].
  apply any_spec in H as (u & Hu & H). apply any_spec in H as (u' & Hu' & H).
  rewrite !andb_true_iff in H. destruct H as [[H1 H2] H3%eqb_eq]. apply walkers_spec in Hu, Hu'.
  destruct (w_tri m' u) as [t|] eqn:Et; [|discriminate H2]. exists u, u', t.
  split; [done|]. split; [done|]. split; [apply (negb_iff _ _ (eqb_spec u u') H1)|]. split; [exact Et|by symmetry].
Qed.
Print Assumptions C16_flip32_on_existing_triangle_refuted.

(** ** C18. Any history. *)
Theorem C18_any_history {V T} sim ctr ps (d : T) (os : list (op V)) m0 :
  mesh_new sim ctr ps d = Some m0 → all_admissible m0 os →
  ∃ m, run_ops m0 os = Some m ∧ mesh_ok m ∧
    (Forall (λ o, is_add o = false) os → assert_integrity None m = true).
Proof.
  intros E Ha. destruct (history_ok sim ctr ps d os m0 E Ha) as (m & H1 & H2 & _ & H3).
  exact (ex_intro _ m (conj H1 (conj H2 H3))).
Qed.
Print Assumptions C18_any_history.

Example C18_witness : all_admissible ex_new ex_ops4 ∧ Forall (λ o, is_add o = false) ex_ops4 ∧
  assert_integrity None (ex ex_ops4) = true ∧ m_track (ex ex_ops4) = true.
Proof.
  split; [apply all_admissibleb_spec; vm_compute; reflexivity|].
  split; [repeat constructor|]. split; vm_compute; reflexivity.
Qed.

(** ** C19. Tet counts; the frame is part of the specifications ([replaces]). *)
Theorem C19_flip14_count {V T} (m : mesh V T) w v m' ws : mesh_ok m → mesh_ok m' → flip14_spec m w v m' ws →
  ∃ n, num_tets m = Some n ∧ num_tets m' = Some (n + 3)%N.
Proof. exact (count14 m w v m' ws). Qed.
Theorem C19_flip23_count {V T} (m : mesh V T) w m' ws a b c d e other id2 : mesh_ok m → mesh_ok m' →
  flip23_spec m w m' ws a b c d e other id2 →
  ∃ n, num_tets m = Some n ∧ num_tets m' = Some (n + 1)%N.
Proof. exact (count23 m w m' ws a b c d e other id2). Qed.
Theorem C19_flip32_count {V T} (m : mesh V T) w m' ws p q x y z o1 o2 : mesh_ok m → mesh_ok m' →
  flip32_spec m w m' ws p q x y z o1 o2 →
  ∃ n, num_tets m = Some (n + 1)%N ∧ num_tets m' = Some n.
Proof. exact (count32 m w m' ws p q x y z o1 o2). Qed.
Theorem C19_flip44_count {V T} (m : mesh V T) w m' ws p q x y z u r1 r2 r3 : mesh_ok m → mesh_ok m' → valid m w →
  flip44_spec m w m' ws p q x y z u r1 r2 r3 →
  ∃ n, num_tets m = Some n ∧ num_tets m' = Some n.
Proof. exact (count44 m w m' ws p q x y z u r1 r2 r3). Qed.
Print Assumptions C19_flip14_count.
Print Assumptions C19_flip23_count.
Print Assumptions C19_flip32_count.
Print Assumptions C19_flip44_count.

(** Whatever a flip replaces, it leaves every other tet's vertices, edges, locks and value alone,
    every vertex's position, value and flags, and every edge it does not remove. *)
Theorem C19_frame {V T} (m m' : mesh V T) old new ea ed : replaces m m' old new ea ed →
  (∀ id t, tet_get m id = Some t → id ∉ old → ∃ t', tet_get m' id = Some t' ∧
     t_vs t' = t_vs t ∧ t_edges t' = t_edges t ∧ t_flags t' = t_flags t ∧ t_val t' = t_val t) ∧
  (∀ id t', tet_get m' id = Some t' → id ∉ new.*1 → ∃ t, tet_get m id = Some t) ∧
  (∀ v vt, im_get (m_verts m) v = Some vt → ∃ vt', im_get (m_verts m') v = Some vt' ∧
     v_pos vt' = v_pos vt ∧ v_val vt' = v_val vt ∧ v_flags vt' = v_flags vt) ∧
  (∀ v, im_get (m_verts m) v = None → im_get (m_verts m') v = None) ∧
  (∀ e ue, im_get (m_edges m) e = Some ue → ue_vs ue ∉ sorted_2 <$> ed → im_get (m_edges m') e = Some ue).
Proof. exact (frame m m' old new ea ed). Qed.
Print Assumptions C19_frame.

(** ** C20. Locked triangles and edges. *)
Theorem C20_flip23_unlocked {V T} (m : mesh V T) w : mesh_ok m → valid m w →
  (w_locked m w = Some true → flip23_unlocked m w = Some (m, None)) ∧
  (w_locked m w = Some false → flip23_ready m w → id_room m 1 1 →
   ∃ m' ws, flip23_unlocked m w = Some (m', Some ws) ∧ flip23_unchecked m w = Some (m', ws) ∧ mesh_ok m' ∧
     (∀ t, locked_tri m' t ↔ locked_tri m t) ∧ (∀ a b, locked_edge m' a b ↔ locked_edge m a b)).
Proof. exact (unlocked23 m w). Qed.
Print Assumptions C20_flip23_unlocked.

Theorem C20_flip32_unlocked {V T} (m : mesh V T) w : mesh_ok m → valid m w →
  (¬ ring3 m w ∨ edge_star_locked m w → flip32_unlocked m w = Some (m, None)) ∧
  (¬ edge_star_locked m w → flip32_ready m w →
   ∃ m' ws, flip32_unlocked m w = Some (m', Some ws) ∧ flip32_unchecked m w = Some (m', ws) ∧ mesh_ok m' ∧
     (∀ t, locked_tri m' t ↔ locked_tri m t) ∧ (∀ a b, locked_edge m' a b ↔ locked_edge m a b)).
Proof. exact (unlocked32 m w). Qed.
Print Assumptions C20_flip32_unlocked.

Example C20_witness :
  (* a locked triangle and edge survive an unrelated flip and block flips that would remove them *)
  let m := ex (ex_ops2 ++ [OLockTri (Walker 7 4) true; OLockEdge (Walker 7 4) true]) in
  w_locked m (Walker 7 4) = Some true ∧ w_edge_locked m (Walker 7 4) = Some true ∧
  admissibleb m (OFlip32U (Walker 0 0)) = true ∧
  (match flip32_unlocked m (Walker 0 0) with Some (m', Some _) => someb (tet_get m' 7) | _ => false end) = true ∧
  (match flip32_unlocked m (Walker 7 4) with Some (_, None) => true | _ => false end) = true.
Proof. vm_compute. done. Qed.

(** ** C21. The triangle map. *)
Theorem C21_triangle_map_is_exact {V T} (m : mesh V T) t : mesh_ok m → m_track m = true →
  (has_tri m t.1.1 t.1.2 t.2 ∧ ∃ w, walker_from_tri_tracked m t = Some (Some w) ∧ valid m w ∧ w_tri m w = Some t) ∨
  (¬ has_tri m t.1.1 t.1.2 t.2 ∧ walker_from_tri_tracked m t = Some None).
Proof. exact (tri_lookup m t). Qed.
Print Assumptions C21_triangle_map_is_exact.

Theorem C21_tracking_switch {V T} (m : mesh V T) b : mesh_ok m →
  ∃ m', set_track_tri_map m b = Some m' ∧ mesh_ok m' ∧ m_track m' = b ∧
    m_verts m' = m_verts m ∧ m_ghost_flags m' = m_ghost_flags m ∧ m_edges m' = m_edges m ∧
    m_tets m' = m_tets m ∧ m_center m' = m_center m.
Proof. exact (set_track_step m b). Qed.
Print Assumptions C21_tracking_switch.

Theorem C18_reachable_is_consistent {V T} (m : mesh V T) : reachable m → mesh_ok m.
Proof. exact (reachable_ok m). Qed.
Print Assumptions C18_reachable_is_consistent.

Example C21_witness : m_track (ex ex_ops4) = true ∧
  walker_from_tri_tracked (ex ex_ops4) (4, 0, 2)%N = Some (Some (Walker 7 5)) ∧
  walker_from_tri_tracked (ex ex_ops4) (2, 1, 3)%N = Some None.
Proof. vm_compute. done. Qed.

(** ** C22. Vertices know a tet. *)
Theorem C22_vertex_walker {V T} (m : mesh V T) v : reachable m → attached m v → v ≠ GHOST →
  ∃ w, walker_from_vertex m v = Some w ∧ valid m w ∧ w_first m w = Some v.
Proof. intros Hr. exact (vertex_lookup m v (reachable_ok m Hr)). Qed.
Print Assumptions C22_vertex_walker.

Example C22_witness : reachable (ex ex_ops4) ∧ attached (ex ex_ops4) 4 ∧
  walker_from_vertex (ex ex_ops4) 4 = Some (Walker 8 0).
Proof.
  split; [exact ex4_reachable|]. split; [apply attachedb_spec; vm_compute; reflexivity|]. vm_compute. reflexivity.
Qed.
