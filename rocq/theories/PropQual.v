(** Properties C20 (quality variants), C30, C33, C44: tet quality and its improvement by flips. *)
From Coq Require Import NArith ZArith Lia.
From stdpp Require Import base numbers list gmap option relations.
From Verif Require Import IdMapModel IdMapProofs WalkerModel WalkerSpec WalkerProofs MeshModel MeshOps MeshSpec MeshCheck FlipSpec
  GeoModel GeoSpec GeoProofs HistSpec History HistCheck NewMesh Reach Volume PropMesh
  QualModel QualSpec QualProofs QualTerm QualHull QualCheck.
Local Open Scope nat_scope.

(** ** A concrete arithmetic: exact integers, quality in thousandths, infinity a large number
    (larger values count as infinite). *)
Definition qz : qarith Z := QArith Z orient (λ v, (v <=? 0)%Z)
  (λ a b c d, Z.sqrt (norm2 (vcross (vsub b a) (vsub d c)))) Z.leb (λ v a, v * 1000 / a)%Z
  (λ a b, Z.min a 1000000000 <? Z.min b 1000000000)%Z 1000000000%Z (-1)%Z (λ _, false) (λ a b c d, (0 <? orient a.2 b.2 c.2 d.2)%Z).

Lemma orient_reorder (x : arr4 pt) σ : even_perm σ →
  let y := reorder x σ in orient (q0 y) (q1 y) (q2 y) (q3 y) = orient (q0 x) (q1 x) (q2 x) (q3 x).
Proof.
  intros [p ->]%even_perms_enum. destruct x as [a b c d]. destruct a, b, c, d.
  destruct p; cbn; geo; ring.
Qed.
Lemma qz_sim : sim_even qz.
Proof.
  intros x σ Hσ. cbv zeta. cbn [qa_sim qz]. f_equal.
  pose proof (orient_reorder (A4 (q0 x).2 (q1 x).2 (q2 x).2 (q3 x).2) σ Hσ) as H. cbv zeta in H.
  apply even_perms_enum in Hσ as [p ->]. destruct x as [a b c d]. destruct p; exact H.
Qed.
Lemma qz_lt : lt_order qz.
Proof.
  split; [|split]; cbn [qa_lt qz].
  - intros a. rewrite Z.ltb_ge. lia.
  - intros a b c. rewrite !Z.ltb_lt. lia.
  - intros a b c. rewrite !Z.ltb_ge. lia.
Qed.

Definition ex_q : arr4 (pt * Z) := A4 (Pt 0 0 0, 10%Z) (Pt 0 0 80, 11%Z) (Pt 0 80 0, 12%Z) (Pt 80 0 0, 13%Z).
Definition qm0 : mesh Z unit := default mesh_empty (mesh_new sim_z ctr_z ex_q ()).
Definition qm (os : list (op Z)) : mesh Z unit := default mesh_empty (run_ops qm0 os).
Definition qops1 : list (op Z) := [OTrack true; OInsert (walker_from_tet_id 0) (Pt 10 13 18) 14%Z].

Lemma qm_reachable os : all_admissibleb qm0 os = true → reachable (qm os).
Proof.
  intros H. destruct (new_facts sim_z ctr_z ex_q ()) as (m0 & E & _).
  assert (qm0 = m0) as En by (unfold qm0; by rewrite E).
  apply all_admissibleb_spec in H. rewrite En in H.
  destruct (history_ok _ _ _ _ os m0 E H) as (m & Er & _).
  exists sim_z, ctr_z, ex_q, (), m0, os. split; [done|]. split; [done|].
  unfold qm. rewrite En, Er. done.
Qed.
Lemma qm1_reachable : reachable (qm qops1). Proof. apply qm_reachable. vm_compute. reflexivity. Qed.

(** ** C20. The quality variants respect locks.  Nothing is assumed about the arithmetic. *)
Theorem C20_flip23_quality {V T F} (ar : qarith F) (m : mesh V T) w : mesh_ok m → valid m w →
  (w_locked m w = Some true → flip23_quality ar m w = Some (m, None)) ∧
  (∀ m' ws, flip23_ready m w → id_room m 1 1 → flip23_quality ar m w = Some (m', Some ws) →
     mesh_ok m' ∧ (∀ t, locked_tri m' t ↔ locked_tri m t) ∧ (∀ a b, locked_edge m' a b ↔ locked_edge m a b)).
Proof. exact (qual23_locks ar m w). Qed.
Print Assumptions C20_flip23_quality.

Theorem C20_flip32_quality {V T F} (ar : qarith F) (m : mesh V T) w : mesh_ok m → valid m w →
  (edge_star_locked m w → flip32_quality ar m w = Some (m, None)) ∧
  (∀ m' ws, flip32_ready m w → flip32_quality ar m w = Some (m', Some ws) →
     mesh_ok m' ∧ (∀ t, locked_tri m' t ↔ locked_tri m t) ∧ (∀ a b, locked_edge m' a b ↔ locked_edge m a b)).
Proof. exact (qual32_locks ar m w). Qed.
Print Assumptions C20_flip32_quality.

(** The same walkers, improving without the lock, rejected with it. *)
Example C20_quality_witness :
  let m := qm qops1 in
  existsb (λ w, match flip23_quality qz m w, set_tri_lock m w true with
                | Some (_, Some _), Some m' => ready23b m w && roomyb m 1 1 && match flip23_quality qz m' w with Some (_, None) => true | _ => false end
                | _, _ => false end) (walkers m) = true.
Proof. vm_compute. reflexivity. Qed.

(** ** C30. [quality]. *)
Theorem C30_order_is_irrelevant {V T F} (ar : qarith F) (m : mesh V T) (a : arr4 N) σ :
  (GHOST ∈ list4 a → sim_even ar) → NoDup (list4 a) → even_perm σ →
  let b := reorder a σ in quality ar m (q0 b) (q1 b) (q2 b) (q3 b) = quality ar m (q0 a) (q1 a) (q2 a) (q3 a).
Proof. exact (quality_even ar m a σ). Qed.
Print Assumptions C30_order_is_irrelevant.

(** Solid tets: the arithmetic is arbitrary, but whether [robust_geo::orient_3d] says "not positive"
    must not depend on the order (it is exact). *)
Theorem C30_nonpositive_volume {V T F} (ar : qarith F) (m : mesh V T) v0 v1 v2 v3 p0 p1 p2 p3 :
  (∀ (x : arr4 pt) σ, even_perm σ → let y := reorder x σ in
     qa_nonpos ar (qa_orient ar (q0 y) (q1 y) (q2 y) (q3 y)) = qa_nonpos ar (qa_orient ar (q0 x) (q1 x) (q2 x) (q3 x))) →
  GHOST ∉ [v0; v1; v2; v3] → NoDup [v0; v1; v2; v3] →
  idx_ori m v0 = Some p0 → idx_ori m v1 = Some p1 → idx_ori m v2 = Some p2 → idx_ori m v3 = Some p3 →
  if qa_nonpos ar (qa_orient ar p0 p1 p2 p3) then quality ar m v0 v1 v2 v3 = Some (qa_neg ar)
  else ∃ vol area, quality ar m v0 v1 v2 v3 = Some (qa_div ar vol area) ∧ qa_nonpos ar vol = false.
Proof. exact (quality_solid ar m v0 v1 v2 v3 p0 p1 p2 p3). Qed.
Print Assumptions C30_nonpositive_volume.

Theorem C30_ghost_tets {V T F} (ar : qarith F) (m : mesh V T) v0 v1 v2 v3 : GHOST ∈ [v0; v1; v2; v3] →
  quality ar m v0 v1 v2 v3 =
    if qa_nan ar (m_center m) then Some (qa_inf ar)
    else (λ b : bool, if b then qa_inf ar else qa_neg ar) <$> orient_3d_sim (qa_sim ar) m v0 v1 v2 v3.
Proof. exact (quality_ghost ar m v0 v1 v2 v3). Qed.
Print Assumptions C30_ghost_tets.

Example C30_witness :
  (* a good tet, two flat or inverted ones, ghost tets with both signs *)
  let m := qm qops1 in
  quality qz m 0 1 2 3 = Some 46188%Z ∧ quality qz m 2 0 1 3 = Some 46188%Z ∧
  quality qz m 1 0 2 3 = Some (-1)%Z ∧ quality qz m 0 1 2 GHOST = Some (-1)%Z ∧ quality qz m 1 0 2 GHOST = Some 1000000000%Z.
Proof. vm_compute. repeat split; reflexivity. Qed.

(** ** C33. Quality flips. *)
Theorem C33_flip23_quality {V T F} (ar : qarith F) : sim_even ar → lt_order ar → ∀ (m : mesh V T) w,
  mesh_ok m → flip23_ready m w → id_room m 1 1 →
  (flip23_quality ar m w = Some (m, None) ∧
    (w_locked m w = Some true ∨
     ∃ a b c d e o v q, w_verts m w = Some (A4 a b c d) ∧ to_adj m w = Some o ∧ w_fourth m o = Some e ∧
       v ∈ [A4 b a d e; A4 a c d e; A4 c b d e] ∧ quality ar m (q0 v) (q1 v) (q2 v) (q3 v) = Some q ∧
       ∀ id q', id ∈ [w_tet w; w_tet o] → tet_quality ar m id = Some q' → qa_lt ar q' q = false)) ∨
  (∃ m' ws o n, flip23_quality ar m w = Some (m', Some ws) ∧ flip23_unchecked m w = Some (m', ws) ∧
     w_locked m w = Some false ∧ mesh_ok m' ∧ to_adj m w = Some o ∧
     improves ar m m' [w_tet w; w_tet o] [w_tet w; w_tet o; n] ∧ NoDup [w_tet w; w_tet o; n] ∧
     ∃ new ea ed, replaces m m' [w_tet w; w_tet o] new ea ed ∧ new.*1 = [w_tet w; w_tet o; n]).
Proof. exact (qual23 ar). Qed.
Print Assumptions C33_flip23_quality.

Theorem C33_flip32_quality {V T F} (ar : qarith F) : sim_even ar → lt_order ar → ∀ (m : mesh V T) w,
  mesh_ok m → flip32_ready m w →
  (flip32_quality ar m w = Some (m, None) ∧
    (edge_star_locked m w ∨
     ∃ p q x y z o1 o2 v r, w_verts m w = Some (A4 p q x y) ∧ ring_next m w = Some o1 ∧ ring_next m o1 = Some o2 ∧
       w_fourth m o1 = Some z ∧
       v ∈ [A4 y x z p; A4 x y z q] ∧ quality ar m (q0 v) (q1 v) (q2 v) (q3 v) = Some r ∧
       ∀ id q', id ∈ [w_tet w; w_tet o1; w_tet o2] → tet_quality ar m id = Some q' → qa_lt ar q' r = false)) ∨
  (∃ m' ws o1 o2, flip32_quality ar m w = Some (m', Some ws) ∧ flip32_unchecked m w = Some (m', ws) ∧
     ¬ edge_star_locked m w ∧ mesh_ok m' ∧ ring_next m w = Some o1 ∧ ring_next m o1 = Some o2 ∧
     improves ar m m' [w_tet w; w_tet o1; w_tet o2] [w_tet w; w_tet o1] ∧ NoDup [w_tet w; w_tet o1; w_tet o2] ∧
     ∃ new ea ed, replaces m m' [w_tet w; w_tet o1; w_tet o2] new ea ed ∧ new.*1 = [w_tet w; w_tet o1]).
Proof. exact (qual32 ar). Qed.
Print Assumptions C33_flip32_quality.

(** Whatever the walker and the arithmetic: a rejected flip returns the mesh unchanged. *)
Theorem C33_rejected_leaves_unchanged {V T F} (ar : qarith F) (m m' : mesh V T) w : mesh_ok m → valid m w →
  (flip23_quality ar m w = Some (m', None) → m' = m) ∧ (flip32_quality ar m w = Some (m', None) → m' = m).
Proof.
  intros Hok Hw. split; intros E.
  - pose proof (q23_none ar m w m' Hok Hw E). congruence.
  - pose proof (q32_none ar m w m' Hok Hw E). congruence.
Qed.
Print Assumptions C33_rejected_leaves_unchanged.

(** The number of improving flips that can follow each other is bounded by a number that depends on
    the mesh only; in particular no infinite sequence exists. *)
Theorem C33_no_infinite_sequence {V T F} (ar : qarith F) : sim_even ar → lt_order ar →
  (∀ m : mesh V T, mesh_ok m → ∃ k, ∀ n m', nsteps (quality_flip ar) n m m' → n ≤ k) ∧
  ¬ ∃ f : nat → mesh V T, mesh_ok (f 0) ∧ ∀ n, quality_flip ar (f n) (f (S n)).
Proof. intros H1 H2. split; [exact (qflips_bounded ar H1 H2)|exact (qflips_terminate ar H1 H2)]. Qed.
Print Assumptions C33_no_infinite_sequence.

(** [flip_quality] ends without a panic; its result is reached by improving flips. *)
Theorem C33_flip_quality {V T F} (ar : qarith F) : sim_even ar → lt_order ar → ∀ m : mesh V T,
  mesh_ok m → m_track m = true → (im_npi (m_verts m) ≤ GHOST)%N → flips_safe ar m →
  ∃ fuel m', (∀ fuel', fuel ≤ fuel' → flip_quality ar fuel' m = Some (Some m')) ∧
    rtc (quality_flip ar) m m' ∧ mesh_ok m' ∧ no_worse ar m m'.
Proof. exact (flip_quality_ok ar). Qed.
Print Assumptions C33_flip_quality.

Lemma qm1_safe : flips_safe qz (qm qops1).
Proof.
  apply (safeb_spec qz qz_sim qz_lt 8); [|vm_compute; reflexivity]. apply (reachable_ok _ qm1_reachable).
Qed.
Example C33_witness :
  sim_even qz ∧ lt_order qz ∧ flips_safe qz (qm qops1) ∧ m_track (qm qops1) = true ∧
  (im_npi (m_verts (qm qops1)) <=? GHOST)%N = true ∧
  match flip_quality qz 300 (qm qops1) with
  | Some (Some m') => existsb (λ id, negb (bool_decide (t_vs <$> tet_get m' id = t_vs <$> tet_get (qm qops1) id))) (im_keys (m_tets (qm qops1)))
  | _ => false
  end = true.
Proof.
  split; [exact qz_sim|]. split; [exact qz_lt|]. split; [exact qm1_safe|]. split; [vm_compute; reflexivity|].
  split; vm_compute; reflexivity.
Qed.

(** Without the triangle map kept up to date the queue reads stale entries: after a history of
    admissible operations, [flip_quality] panics. *)
Definition qops_stale : list (op Z) := qops1 ++ [OFlip23 (Walker 0 0); OTrack false; OFlip32 (Walker 0 2)].
Theorem C33_flip_quality_untracked_refuted :
  ∃ m : mesh Z unit, reachable m ∧ mesh_ok m ∧ flip_quality qz 300 m = None.
Proof.
  exists (qm qops_stale). assert (reachable (qm qops_stale)) as H by (apply qm_reachable; vm_compute; reflexivity).
  split; [exact H|]. split; [exact (reachable_ok _ H)|]. vm_compute. reflexivity.
Qed.
Print Assumptions C33_flip_quality_untracked_refuted.

(** ** C44. The meshed region. *)
(** If every triangle between a ghost tet and a solid tet is locked and ghost tets have infinite
    quality, improving flips keep all ghost tets, hence the hull, and the total solid volume. *)
Theorem C44_locked_boundary {V T F} (ar : qarith F) : sim_even ar → lt_order ar →
  (∀ q, qa_lt ar (qa_inf ar) q = false) → ∀ m m' : mesh V T,
  mesh_ok m → hull_locked m → ghosts_best ar m → rtc (quality_flip ar) m m' →
  same_ghost_tets m m' ∧ solid_volume_x6 m' = solid_volume_x6 m.
Proof. exact (qflips_hull ar). Qed.
Print Assumptions C44_locked_boundary.

Definition isgb (m : mesh Z unit) id : bool :=
  match tet_get m id with Some t => bool_decide (GHOST ∈ list4 (t_vs t)) | None => false end.
Lemma isgb_spec m id : isgb m id = true ↔ is_ghost_tet m id.
Proof.
  unfold isgb, is_ghost_tet. destruct (tet_get m id) as [t|]; [|split; [done|by intros (? & ? & _)]].
  rewrite bool_decide_eq_true. split; [eauto|by intros (? & [= <-] & ?)].
Qed.
Definition hull_walkers (m : mesh Z unit) : list walker :=
  List.filter (λ w, isgb m (w_tet w) && match to_adj m w with Some o => negb (isgb m (w_tet o)) | None => false end) (walkers m).
Lemma hull_lockedb (m : mesh Z unit) : forallb (λ w, eqb (w_locked m w) (Some true)) (hull_walkers m) = true → hull_locked m.
Proof.
  rewrite forallb_forall. intros H w o Hw Ho Hg Hn. apply eqb_eq, H. apply filter_In. split; [by apply elem_of_list_In, walkers_spec|].
  rewrite Ho, (proj2 (isgb_spec m _) Hg). cbn. destruct (isgb m (w_tet o)) eqn:E; [|done]. by apply isgb_spec in E.
Qed.
Lemma ghosts_bestb (m : mesh Z unit) : mesh_ok m →
  forallb (λ w, negb (isgb m (w_tet w)) || eqb (tet_quality qz m (w_tet w)) (Some (qa_inf qz))) (walkers m) = true → ghosts_best qz m.
Proof.
  rewrite forallb_forall. intros Hok H id Hg. pose proof Hg as (t & Ht & _).
  assert (valid m (Walker id 0)) as Hv by (split; [by exists t|cbn; lia]).
  specialize (H (Walker id 0) (proj1 (elem_of_list_In _ _) (proj2 (walkers_spec m _) Hv))). cbn [w_tet] in H.
  rewrite (proj2 (isgb_spec m id) Hg) in H. by apply eqb_eq.
Qed.

Definition qops2 : list (op Z) := qops1 ++ [OInsert (walker_from_tet_id 0) (Pt 3 4 30) 15%Z].
Definition qops2l : list (op Z) := qops2 ++ map (λ w, OLockTri w true) (hull_walkers (qm qops2)).
Lemma qm2l_reachable : reachable (qm qops2l). Proof. apply qm_reachable. vm_compute. reflexivity. Qed.
Example C44_witness :
  (∀ q, qa_lt qz (qa_inf qz) q = false) ∧
  hull_locked (qm qops2l) ∧ ghosts_best qz (qm qops2l) ∧
  existsb (λ w, ready23b (qm qops2l) w && roomyb (qm qops2l) 1 1 &&
    match flip23_quality qz (qm qops2l) w with Some (_, Some _) => true | _ => false end) (walkers (qm qops2l)) = true ∧
  match flip_quality qz 300 (qm qops2l) with
  | Some (Some m') => bool_decide (num_tets (qm qops2l) = Some 11%N ∧ num_tets m' = Some 10%N)
  | _ => false
  end = true.
Proof.
  split; [intros q; cbn [qa_lt qa_inf qz]; rewrite Z.ltb_ge; lia|].
  split; [apply hull_lockedb; vm_compute; reflexivity|].
  split; [apply ghosts_bestb; [apply (reachable_ok _ qm2l_reachable)|vm_compute; reflexivity]|].
  split; vm_compute; reflexivity.
Qed.

(** Without the locks it fails: a flip between a solid tet and a ghost tet counts as an improvement
    and takes volume away. *)
Theorem C44_region_is_kept_refuted :
  ∃ m m' : mesh Z unit, reachable m ∧ mesh_ok m ∧ flips_safe qz m ∧ ghosts_best qz m ∧
    flip_quality qz 300 m = Some (Some m') ∧ solid_volume_x6 m = 512000%Z ∧ solid_volume_x6 m' = 364800%Z.
Proof.
  destruct (flip_quality qz 300 (qm qops1)) as [[m'|]|] eqn:E.
  - exists (qm qops1), m'. split; [exact qm1_reachable|]. split; [exact (reachable_ok _ qm1_reachable)|].
    split; [exact qm1_safe|].
    split; [apply ghosts_bestb; [apply (reachable_ok _ qm1_reachable)|vm_compute; reflexivity]|].
    split; [exact E|]. split; [vm_compute; reflexivity|].
    assert (match flip_quality qz 300 (qm qops1) with Some (Some m') => (solid_volume_x6 m' =? 364800)%Z | _ => false end = true) as H
      by (vm_compute; reflexivity).
    rewrite E in H. by apply Z.eqb_eq.
  - exfalso. assert (match flip_quality qz 300 (qm qops1) with Some None => false | _ => true end = true) as H by (vm_compute; reflexivity).
    by rewrite E in H.
  - exfalso. assert (match flip_quality qz 300 (qm qops1) with None => false | _ => true end = true) as H by (vm_compute; reflexivity).
    by rewrite E in H.
Qed.
Print Assumptions C44_region_is_kept_refuted.

(** ** C33 again. [flip_quality] does not reach a local optimum: improving 2-3 flips remain when it
    returns, because the triangles of the initial queue are looked up unsorted. *)
Definition qops3 : list (op Z) := [OTrack true; OInsert (walker_from_tet_id 0) (Pt 18 13 10) 14%Z].
Theorem C33_local_optimum_refuted :
  ∃ (m m' : mesh Z unit) w, reachable m ∧ mesh_ok m ∧ m_track m = true ∧ flips_safe qz m ∧
    flip_quality qz 300 m = Some (Some m') ∧
    flip23_ready m' w ∧ (match flip23_quality qz m' w with Some (_, Some _) => true | _ => false end) = true.
Proof.
  assert (reachable (qm qops3)) as Hr by (apply qm_reachable; vm_compute; reflexivity).
  set (b := match flip_quality qz 300 (qm qops3) with
            | Some (Some m') => ready23b m' (Walker 5 1) && match flip23_quality qz m' (Walker 5 1) with Some (_, Some _) => true | _ => false end
            | _ => false end).
  assert (b = true) as Hb by (vm_compute; reflexivity). unfold b in Hb. clear b.
  destruct (flip_quality qz 300 (qm qops3)) as [[m'|]|] eqn:E; [|done..]. apply andb_true_iff in Hb as [H1 H2].
  exists (qm qops3), m', (Walker 5 1). split; [exact Hr|]. split; [exact (reachable_ok _ Hr)|].
  split; [vm_compute; reflexivity|]. split; [|split; [exact E|]; split; [by apply ready23b_spec|exact H2]].
  apply (safeb_spec qz qz_sim qz_lt 8); [exact (reachable_ok _ Hr)|vm_compute; reflexivity].
Qed.
Print Assumptions C33_local_optimum_refuted.
