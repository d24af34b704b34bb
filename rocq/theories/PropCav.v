(** C35: the cavity search. *)
From Coq Require Import NArith ZArith Lia.
From stdpp Require Import base numbers list gmap option relations.
From Verif Require Import IdMapModel WalkerModel WalkerSpec MeshModel MeshSpec MeshOps HistSpec Reach GeoModel GeoProofs Flip44Ok PropMesh PropGeo CavModel CavSpec CavClean CavOk.
Local Open Scope nat_scope.

(** Every mesh built with the API satisfies what the search expects: it is well formed and no
    search flag is set. *)
Theorem C35_between_operations_no_flag_is_set {V T} (m : mesh V T) : reachable m → mesh_ok m ∧ no_cavity_flags m.
Proof. intros H. split; [by apply reachable_ok|]. by apply idle_cavity, idle_reachable. Qed.
Print Assumptions C35_between_operations_no_flag_is_set.

(** Convex mode (Delaunay insertion).  The search ends, leaves the mesh exactly as it was, and
    returns each enclosed tet once and the complete boundary, each triangle once.  The enclosed
    tets are the starting ones and all those reached from them through tets in conflict. *)
Theorem C35_convex {V T} (m : mesh V T) ins ori assert_star start start_boundary exclude :
  mesh_ok m → no_cavity_flags m → steady ins m → region m start → boundary_of m start start_boundary →
  (assert_star = true → ∀ w t, w ∈ start_boundary → w_tri m w = Some t → (0 < ori t)%Z) →
  ∃ B E, point_cavity ins ori m start_boundary start exclude true assert_star true = Some (m, B, E) ∧
    region m E ∧ boundary_of m E B ∧
    ∀ id, id ∈ E ↔ ∃ s, s ∈ start ∧ rtc (λ a b, neighbours m a b ∧ in_conflict ins m b) s id.
Proof. intros Hok Hno Hst HR HB Hp. exact (cavity_convex m Hok Hno ins ori assert_star start start_boundary exclude Hst HR HB Hp). Qed.
Print Assumptions C35_convex.

(** Otherwise the search ends too.  Among the starting tets and those reached from them through
    tets in conflict it finds a region [found] (just the starting tets when it was told not to
    extend), and returns the largest part of it that is star-shaped with respect to the vertex and
    has no excluded tet at its boundary, with the complete boundary, leaving the mesh exactly as it
    was.  It panics only when that part is empty. *)
Theorem C35_concave {V T} (m : mesh V T) ins ori assert_star remove_nd start start_boundary exclude :
  mesh_ok m → no_cavity_flags m → turning ori → region m start → boundary_of m start start_boundary →
  (assert_star = true → ∀ w t, w ∈ start_boundary → w_tri m w = Some t → (0 < ori t)%Z) →
  ∃ found, (∀ id, id ∈ start → id ∈ found) ∧
    (∀ id, id ∈ found → ∃ s, s ∈ start ∧ rtc (λ a b, neighbours m a b ∧ in_conflict ins m b) s id) ∧
    (remove_nd = false → found = start) ∧
    match point_cavity ins ori m start_boundary start exclude false assert_star remove_nd with
    | Some (m', B, E) => m' = m ∧ E ≠ [] ∧ region m E ∧ boundary_of m E B ∧ (∀ id, id ∈ E → id ∈ found) ∧
        star_shaped ori m exclude E ∧
        ∀ K, (∀ id, id ∈ K → id ∈ found) → star_shaped ori m exclude K → ∀ id, id ∈ K → id ∈ E
    | None => ∀ K, (∀ id, id ∈ K → id ∈ found) → star_shaped ori m exclude K → K = []
    end.
Proof.
  intros Hok Hno Ht HR HB Hp.
  destruct (cavity_concave m Hok Hno ins ori Ht (λ _, True) (λ _ _ _ _, I) assert_star remove_nd start start_boundary exclude HR HB Hp I) as (E1 & _ & [H1 H2] & H3 & H4).
  exists E1. done.
Qed.
Print Assumptions C35_concave.

(** When the starting region is star-shaped and nothing is excluded, it is kept. *)
Theorem C35_star_shaped_start_is_kept {V T} (m : mesh V T) ins ori assert_star remove_nd start start_boundary :
  mesh_ok m → no_cavity_flags m → turning ori → region m start → boundary_of m start start_boundary → start ≠ [] →
  star_shaped ori m [] start →
  ∃ B E, point_cavity ins ori m start_boundary start [] false assert_star remove_nd = Some (m, B, E) ∧ ∀ id, id ∈ start → id ∈ E.
Proof.
  intros Hok Hno Ht HR HB Hne Hst.
  assert (assert_star = true → ∀ w t, w ∈ start_boundary → w_tri m w = Some t → (0 < ori t)%Z) as Hp.
  { intros _ w t Hw Et. destruct HB as (Hv & _ & HB). rewrite list.Forall_forall in Hv. apply (Hst w t); [by apply Hv| |done]. apply HB; [by apply Hv|]. apply elem_of_list_fmap. eauto. }
  destruct (C35_concave m ins ori assert_star remove_nd start start_boundary [] Hok Hno Ht HR HB Hp) as (E1 & H1 & _ & _ & H4).
  destruct (point_cavity _ _ _ _ _ _ _ _ _) as [[[m' B] E]|].
  - destruct H4 as (-> & _ & _ & _ & _ & _ & H4). exists B, E. split; [done|]. intros id Hid. by apply (H4 start).
  - exfalso. apply Hne. by apply H4.
Qed.
Print Assumptions C35_star_shaped_start_is_kept.

(** Not in convex mode: a locked edge or a locked triangle (with locked edges) that was not in the
    inside of the starting region is not in the inside of the result. *)
Theorem C35_locks {V T} (m : mesh V T) ins ori assert_star remove_nd start start_boundary exclude B E :
  mesh_ok m → no_cavity_flags m → turning ori → region m start → boundary_of m start start_boundary →
  point_cavity ins ori m start_boundary start exclude false assert_star remove_nd = Some (m, B, E) →
  (∀ w, valid m w → w_edge_locked m w = Some true → edge_inside m E w → edge_inside m start w) ∧
  (∀ w, valid m w → w_locked m w = Some true → Forall (λ v, w_edge_locked m v = Some true) [w; to_nfe w; to_pfe w] →
     tri_inside m E w → tri_inside m start w).
Proof.
  intros Hok Hno Ht HR HB Hres.
  assert (assert_star = true → all_positive m ori start_boundary) as Hp.
  { intros -> w t Hw Et. destruct (decide (0 < ori t)%Z) as [?|Hn]; [done|]. exfalso. pose proof HB as (Hv & _).
    assert (mfoldl (start_tri ori true) start_boundary m = None) as H.
    { rewrite <- (CavPaint.paint_none m Hno). apply (start_fail m ori); [done|]. exists w, t. split; [done|]. split; [done|]. lia. }
    unfold point_cavity in Hres. by rewrite H in Hres. }
  set (P E := (∀ w, valid m w → w_edge_locked m w = Some true → edge_inside m E w → edge_inside m start w) ∧
    (∀ w, valid m w → w_locked m w = Some true → Forall (λ v, w_edge_locked m v = Some true) [w; to_nfe w; to_pfe w] → tri_inside m E w → tri_inside m start w)).
  destruct (cavity_concave m Hok Hno ins ori Ht P) with (assert_star := assert_star) (remove_nd := remove_nd) (E0 := start) (B0 := start_boundary) (X := exclude) as (E1 & [H1 H2] & _ & _ & H4); try done.
  { intros E' adj Hg [P1 P2]. split.
    - intros w Hw Hl Hin. apply P1; [done|done|]. by eapply (edge_grow m Hok).
    - intros w Hw Hl Hel Hin. apply P2; [done..|]. by eapply (tri_grow m Hok). }
  rewrite Hres in H4. destruct H4 as (_ & _ & _ & _ & Hsub & _). split.
  - intros w Hw Hl Hin. apply H1; [done|done|]. intros u p Hu Ew Eu. by apply Hsub, (Hin u p).
  - intros w Hw Hl Hel [Hin (x & Hx & Hin')]. apply H2; [done..|]. split; [by apply Hsub|]. exists x. split; [done|]. by apply Hsub.
Qed.
Print Assumptions C35_locks.

(** With the assertion switched on, a starting boundary triangle that does not see the vertex is
    reported. *)
Theorem C35_assertion {V T} (m : mesh V T) ins ori remove_nd convex start start_boundary exclude w t :
  mesh_ok m → no_cavity_flags m → boundary_of m start start_boundary → w ∈ start_boundary → w_tri m w = Some t → (ori t <= 0)%Z →
  point_cavity ins ori m start_boundary start exclude convex true remove_nd = None.
Proof.
  intros Hok Hno (Hv & _) Hw Et Hn. unfold point_cavity.
  assert (mfoldl (start_tri ori true) start_boundary m = None) as ->; [|done].
  rewrite <- (CavPaint.paint_none m Hno). apply (start_fail m ori); [done|]. eauto.
Qed.
Print Assumptions C35_assertion.

(** ** The predicates of the mesh *)
Definition ins_of {V T} (m : mesh V T) (v : N) (vs : arr4 N) : Z := default 0%Z (in_sphere m (q0 vs) (q1 vs) (q2 vs) (q3 vs) v).
Definition ori_of {V T} (m : mesh V T) (v : N) (t : N * N * N) : Z := default 0%Z (orient_3d m t.1.1 t.1.2 t.2 v).

(** The crate's own tests satisfy what is asked of the tests above. *)
Theorem C35_predicates {V T} (m : mesh V T) v : mesh_ok m → steady (ins_of m v) m ∧ turning (ori_of m v).
Proof.
  intros Hok. split.
  - intros w w' [a b c d] [a' b' c' d'] Hw Hw' Ht E E'. unfold ins_of. cbn [q0 q1 q2 q3]. f_equal. f_equal.
    by apply (C29_walker_positions_agree m w w' a b c d a' b' c' d' v).
  - intros a b c. unfold ori_of, orient_3d. cbn [fst snd].
    assert (has_ghost [b; c; a; v] = has_ghost [a; b; c; v]) as ->.
    { unfold has_ghost. cbn [existsb]. by destruct (N.eqb GHOST a), (N.eqb GHOST b), (N.eqb GHOST c). }
    destruct (idx_ori m a) as [[x1 y1 z1]|], (idx_ori m b) as [[x2 y2 z2]|], (idx_ori m c) as [[x3 y3 z3]|], (idx_ori m v) as [[x4 y4 z4]|]; cbn -[Z.mul Z.add Z.sub Z.opp has_ghost]; try done.
    unfold orient, vdot, vcross, vsub. cbn [px py pz]. destruct (has_ghost [a; b; c; v]); intros H.
    + refine (Z.lt_le_trans _ _ _ H (Z.eq_le_incl _ _ _)). ring.
    + refine (Z.lt_le_trans _ _ _ H (Z.eq_le_incl _ _ _)). ring.
Qed.
Print Assumptions C35_predicates.

(** A single tet with its four triangles is a proper start (used by Delaunay insertion). *)
Theorem C35_single_tet_start {V T} (m : mesh V T) id : mesh_ok m → is_Some (tet_get m id) →
  region m [id] ∧ boundary_of m [id] (to_edge (walker_from_tet_id id) <$> [0; 1; 2; 3]).
Proof.
  intros Hok Hid. split.
  { split; [apply NoDup_singleton|]. by intros id' ->%elem_of_list_singleton. }
  apply CavBase.sides_bound; [done| | |].
  - repeat (apply list.Forall_cons; split; [split; [done|cbn; lia]|]). done.
  - assert (side <$> (to_edge (walker_from_tet_id id) <$> [0; 1; 2; 3]) = pair id <$> [0; 1; 2; 3]) as -> by done.
    apply NoDup_fmap_2; [intros i j [= ->]; done|]. apply (bool_decide_unpack _). vm_compute. exact Logic.I.
  - intros f Hf. destruct (CavBase.tw_lf m f Hok Hf) as [_ Hne]. destruct f as [id' i]. destruct Hf as [_ Hi]. cbn [fst snd] in *.
    assert (side <$> (to_edge (walker_from_tet_id id) <$> [0; 1; 2; 3]) = pair id <$> [0; 1; 2; 3]) as -> by done. cbn [fmap list_fmap]. split.
    + intros H. rewrite !elem_of_cons, elem_of_nil in H. assert (id' = id) as -> by (destruct_or?; simplify_eq; done). split; [by left|]. by rewrite elem_of_list_singleton.
    + intros [->%elem_of_list_singleton _]. do 4 (destruct i as [|i]; [rewrite !elem_of_cons; tauto|]). lia.
Qed.
Print Assumptions C35_single_tet_start.

(** ** Witnesses *)
Definition tet_bound (id : N) : list walker := to_edge (walker_from_tet_id id) <$> [0; 1; 2; 3].
Definition cav (locks : list (op Z)) : mesh Z unit := ex (ex_ops3 ++ locks ++ [OAddVertex (Pt 1 2 1) 16%Z]).
Definition cav_run (m : mesh Z unit) (id : N) (convex remove_nd : bool) : option (list (N * nat) * list N) :=
  match point_cavity (ins_of m 6) (ori_of m 6) m (tet_bound id) [id] [] convex false remove_nd with
  | Some (_, B, E) => Some (map side B, E)
  | None => None
  end.
Definition lock_tri_only : list (op Z) := [OLockTri (Walker 0 0) true].
Definition lock_all (w : walker) : list (op Z) := [OLockTri w true; OLockEdge w true; OLockEdge (to_nfe w) true; OLockEdge (to_pfe w) true].
Lemma cav_reachable : reachable (cav []). Proof. apply ex_reachable. vm_compute. reflexivity. Qed.
Lemma cav_tri_reachable : reachable (cav lock_tri_only). Proof. apply ex_reachable. vm_compute. reflexivity. Qed.
Lemma cav_all_reachable : reachable (cav (lock_all (Walker 0 3))). Proof. apply ex_reachable. vm_compute. reflexivity. Qed.
Lemma cav_start (m : mesh Z unit) id : reachable m → is_Some (tet_get m id) →
  mesh_ok m ∧ no_cavity_flags m ∧ steady (ins_of m 6) m ∧ turning (ori_of m 6) ∧ region m [id] ∧ boundary_of m [id] (tet_bound id).
Proof.
  intros Hr Hid. destruct (C35_between_operations_no_flag_is_set m Hr) as [Hok Hno]. destruct (C35_predicates m 6 Hok) as [? ?].
  destruct (C35_single_tet_start m id Hok Hid) as [? ?]. done.
Qed.

(** Inserting a vertex into the mesh with 12 tets: Delaunay insertion started at tet 2 removes 7 of
    them, the other mode 6; locking a triangle and its edges keeps it out of the inside of the cavity. *)
Example C35_witness :
  (λ r : list (N * nat) * list N, (length r.1, r.2)) <$> cav_run (cav []) 2 true true = Some (10, [2; 0; 5; 8; 9; 7; 1]%N) ∧
  (λ r : list (N * nat) * list N, (length r.1, r.2)) <$> cav_run (cav []) 0 false true = Some (10, [0; 9; 8; 5; 1; 7]%N) ∧
  (λ r : list (N * nat) * list N, (length r.1, r.2)) <$> cav_run (cav (lock_all (Walker 0 3))) 0 false true = Some (8, [0; 9; 8; 1]%N) ∧
  cav_run (cav []) 3 false false = None.
Proof. vm_compute. repeat split. Qed.

Lemma cav_result m id convex nd E : snd <$> cav_run m id convex nd = Some E →
  ∃ m' B, point_cavity (ins_of m 6) (ori_of m 6) m (tet_bound id) [id] [] convex false nd = Some (m', B, E).
Proof.
  unfold cav_run. destruct (point_cavity _ _ _ _ _ _ _ _ _) as [[[m' B] E']|]; [|done]. cbn. intros [= <-]. eauto.
Qed.
Lemma cav_concave m id E : reachable m → is_Some (tet_get m id) → snd <$> cav_run m id false true = Some E →
  ∃ B, point_cavity (ins_of m 6) (ori_of m 6) m (tet_bound id) [id] [] false false true = Some (m, B, E).
Proof.
  intros Hr Hid (m' & B & Hres)%cav_result. destruct (cav_start m id Hr Hid) as (Hok & Hno & Hs & Ht & HR & HB).
  assert (false = true → ∀ w t, w ∈ tet_bound id → w_tri m w = Some t → (0 < ori_of m 6 t)%Z) as Hp by done.
  destruct (C35_concave m (ins_of m 6) (ori_of m 6) false true [id] (tet_bound id) [] Hok Hno Ht HR HB Hp) as (E1 & _ & _ & _ & Hc).
  rewrite Hres in Hc. destruct Hc as [-> _]. eauto.
Qed.

(** Outside convex mode the starting tet need not be part of the result. *)
Theorem C35_contains_the_start_refuted : ¬ (∀ (m : mesh Z unit) ins ori start start_boundary B E,
  mesh_ok m → no_cavity_flags m → turning ori → region m start → boundary_of m start start_boundary →
  point_cavity ins ori m start_boundary start [] false false true = Some (m, B, E) → ∀ id, id ∈ start → id ∈ E).
Proof.
  intros H. assert (is_Some (tet_get (cav []) 2)) as Hid by (vm_compute; eauto).
  assert (snd <$> cav_run (cav []) 2 false true = Some [0; 5; 8; 9; 7; 1]%N) as Hrun by (vm_compute; reflexivity).
  pose proof cav_reachable as Hr. revert Hid Hrun Hr. generalize (cav []). intros m Hid Hrun Hr.
  destruct (cav_start m 2 Hr Hid) as (Hok & Hno & Hs & Ht & HR & HB). destruct (cav_concave m 2 _ Hr Hid Hrun) as [B Hres].
  specialize (H _ _ _ _ _ _ _ Hok Hno Ht HR HB Hres 2%N ltac:(by left)). revert H. apply (bool_decide_unpack _). vm_compute. exact Logic.I.
Qed.
Print Assumptions C35_contains_the_start_refuted.

(** A locked triangle whose edges are not locked can end up in the inside of the cavity. *)
Theorem C35_locked_triangle_alone_refuted : ¬ (∀ (m : mesh Z unit) ins ori start start_boundary B E,
  mesh_ok m → no_cavity_flags m → turning ori → region m start → boundary_of m start start_boundary →
  point_cavity ins ori m start_boundary start [] false false true = Some (m, B, E) →
  ∀ w, valid m w → w_locked m w = Some true → tri_inside m E w → tri_inside m start w).
Proof.
  intros H. assert (is_Some (tet_get (cav lock_tri_only) 1)) as Hid by (vm_compute; eauto).
  assert (∃ E, snd <$> cav_run (cav lock_tri_only) 1 false true = Some E ∧ 0%N ∈ E ∧ 9%N ∈ E) as (E & Hrun & H0 & H8).
  { eexists. split; [vm_compute; reflexivity|]. split; apply (bool_decide_unpack _); vm_compute; exact Logic.I. }
  assert (∃ x, to_adj (cav lock_tri_only) (Walker 0 0) = Some x ∧ w_tet x = 9%N) as (x & Hx & Hx8) by (eexists; split; vm_compute; reflexivity).
  assert (is_Some (tet_get (cav lock_tri_only) 0)) as Hv by (vm_compute; eauto).
  assert (w_locked (cav lock_tri_only) (Walker 0 0) = Some true) as Hl by (vm_compute; reflexivity).
  pose proof cav_tri_reachable as Hr. revert Hid Hrun Hx Hv Hl Hr. generalize (cav lock_tri_only). intros m Hid Hrun Hx Hv Hl Hr.
  destruct (cav_start m 1 Hr Hid) as (Hok & Hno & Hs & Ht & HR & HB). destruct (cav_concave m 1 _ Hr Hid Hrun) as [B Hres].
  destruct (H _ _ _ _ _ _ _ Hok Hno Ht HR HB Hres (Walker 0 0)) as [Hc _].
  - split; [done|cbn; lia].
  - done.
  - split; [done|]. exists x. split; [done|]. by rewrite Hx8.
  - apply elem_of_list_singleton in Hc. done.
Qed.
Print Assumptions C35_locked_triangle_alone_refuted.

(** Convex mode without extension (a combination no caller uses) leaves its flags behind. *)
Theorem C35_convex_without_extension_refuted : ¬ (∀ (m : mesh Z unit) ins ori start start_boundary m' B E,
  mesh_ok m → no_cavity_flags m → steady ins m → region m start → boundary_of m start start_boundary →
  point_cavity ins ori m start_boundary start [] true false false = Some (m', B, E) → no_cavity_flags m').
Proof.
  intros H. assert (is_Some (tet_get (cav []) 2)) as Hid by (vm_compute; eauto).
  assert (match point_cavity (ins_of (cav []) 6) (ori_of (cav []) 6) (cav []) (tet_bound 2) [2%N] [] true false false with
          | Some (m', _, _) => match tet_get m' 2 with Some t => q0 (f_imm (t_flags t)) | None => false end
          | None => false end = true) as Hrun by (vm_compute; reflexivity).
  pose proof cav_reachable as Hr. revert Hid Hrun Hr. generalize (cav []). intros m Hid Hrun Hr.
  destruct (cav_start m 2 Hr Hid) as (Hok & Hno & Hs & Ht & HR & HB).
  destruct (point_cavity _ _ _ _ _ _ _ _ _) as [[[m' B] E]|] eqn:Hres; [|done]. destruct (tet_get m' 2) as [t|] eqn:Et; [|done].
  destruct (H _ _ _ _ _ _ _ _ Hok Hno Hs HR HB Hres 2%N t Et) as [Hc _]. by rewrite Hc in Hrun.
Qed.
Print Assumptions C35_convex_without_extension_refuted.
