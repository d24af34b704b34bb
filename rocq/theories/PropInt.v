(** C49: what [assert_integrity] checks. *)
From stdpp Require Import base numbers list gmap option relations.
From Coq Require Import NArith ZArith Lia.
From Verif Require Import IdMapModel IdMapSpec IdMapProofs WalkerModel WalkerSpec MeshModel MeshOps MeshSpec MeshCheck MeshRun HistSpec History Reach GeoModel GeoMesh NewMesh Integrity PropMesh IntSpec IntOk.
Local Open Scope nat_scope.

(** The check succeeds exactly on the meshes that have the listed properties, with or without the
    orientation test. *)
Theorem C49_integrity {V T} (m : mesh V T) ori : im_wf (m_verts m) → im_wf (m_edges m) → im_wf (m_tets m) →
  assert_integrity ori m = true ↔ intact ori m.
Proof. intros H1 H2 H3. apply integrity_iff; [by apply wf_bounded..|]. rewrite wf_len by done. eauto. Qed.
Print Assumptions C49_integrity.

(** All vertices of a mesh that passes are part of it. *)
Theorem C49_all_attached {V T} (m : mesh V T) ori v : intact ori m → is_Some (im_get (m_verts m) v) → attached m v.
Proof.
  intros Hi [vt E]. destruct (in_vref _ _ Hi v vt E) as [_ Hf]. unfold w_first in Hf. destruct (tet_get m (w_tet (v_tet vt))) as [t|] eqn:Et; [|done].
  cbn [mbind option_bind] in Hf. apply (inj Some) in Hf. unfold attached, w_first.
  destruct (le_lt_dec 12 (w_edge (v_tet vt))) as [Hge|Hlt].
  - exists (Walker (w_tet (v_tet vt)) 3). split; [split; [by eexists|cbn; lia]|]. cbn [w_tet w_edge]. rewrite Et. cbn [mbind option_bind]. f_equal. rewrite <- Hf.
    assert (first_idx (w_edge (v_tet vt)) = 0) as ->; [|done]. unfold first_idx, tbl. apply nth_overflow. cbn. lia.
  - exists (v_tet vt). split; [split; [by eexists|done]|]. rewrite Et. cbn [mbind option_bind]. by rewrite Hf.
Qed.
Print Assumptions C49_all_attached.

(** With the exact orientation test, every tet of a mesh that passes has positive volume, a ghost tet
    with the mesh centre in the place of the ghost vertex, and the vertices of every tet exist. *)
Theorem C49_all_positive {V T} (m : mesh V T) w a b c d : intact (Some (positive m)) m → valid m w → w_verts m w = Some (A4 a b c d) →
  ∃ s, orient_3d m a b c d = Some s ∧ (0 < s)%Z.
Proof.
  intros Hi [[t Ht] He] Hv. pose proof (in_orient _ _ Hi _ _ t eq_refl Ht) as Hp. unfold positive in Hp.
  rewrite (verts_get m w t Ht) in Hv. apply (inj Some) in Hv.
  pose proof (o3_even m (t_vs t) (w_edge w) He) as Ho. cbv zeta in Ho. rewrite <- Ho in Hp. rewrite Hv in Hp. cbn [q0 q1 q2 q3] in Hp.
  destruct (orient_3d m a b c d) as [s|]; [|done]. exists s. split; [done|]. by apply Z.ltb_lt.
Qed.
Print Assumptions C49_all_positive.

(** A mesh that passes need not be well formed: two copies of the same tets, each closed in itself. *)
Definition twice (m : mesh Z unit) : mesh Z unit :=
  let up (w : walker) := Walker (w_tet w + 5) (w_edge w) in
  let copy (t : tet unit) := Tet (t_vs t) (A4 (up (q0 (t_opp t))) (up (q1 (t_opp t))) (up (q2 (t_opp t))) (up (q3 (t_opp t)))) (t_edges t) (t_flags t) (t_val t) in
  with_tets m (im_extend_values (m_tets m) (copy <$> im_values (m_tets m))).1.
Lemma twice_wf m : mesh_ok m → (im_npi (m_tets m) + N.of_nat (length (im_values (m_tets m))) <= u32_mod)%N →
  im_wf (m_verts (twice m)) ∧ im_wf (m_edges (twice m)) ∧ im_wf (m_tets (twice m)).
Proof.
  intros Hok Hn. split; [apply Hok|]. split; [apply Hok|]. unfold twice. cbn [m_tets with_tets].
  match goal with |- im_wf (im_extend_values ?a ?b).1 => pose proof (wf_extend_values b a (ok_ids_tets _ Hok)) as Hw; destruct (im_extend_values a b) as [im ks] end.
  apply Hw. by rewrite fmap_length.
Qed.
Theorem C49_passing_is_well_formed_refuted : ¬ (∀ m : mesh Z unit, im_wf (m_verts m) → im_wf (m_edges m) → im_wf (m_tets m) →
  assert_integrity (Some (positive m)) m = true → mesh_ok m).
Proof.
  intros H. assert (mesh_ok (ex [])) as Hok by (apply reachable_ok, ex_reachable; vm_compute; reflexivity).
  assert ((im_npi (m_tets (ex [])) + N.of_nat (length (im_values (m_tets (ex [])))) <=? u32_mod)%N = true) as Hn%N.leb_le by (vm_compute; reflexivity).
  destruct (twice_wf _ Hok Hn) as (W1 & W2 & W3).
  assert (assert_integrity (Some (positive (twice (ex [])))) (twice (ex [])) = true) as Hi by (vm_compute; reflexivity).
  pose proof (H _ W1 W2 W3 Hi) as Hok'.
  assert (Walker 0 0 = Walker 5 0) as E; [|discriminate E].
  assert (w_tri (twice (ex [])) (Walker 0 0) = Some (3, 2, 1)%N) as E1 by (vm_compute; reflexivity).
  assert (w_tri (twice (ex [])) (Walker 5 0) = Some (3, 2, 1)%N) as E2 by (vm_compute; reflexivity).
  assert (validb (twice (ex [])) (Walker 0 0) && validb (twice (ex [])) (Walker 5 0) = true) as [V1 V2]%andb_true_iff by (vm_compute; reflexivity).
  revert Hok' E1 E2 V1 V2. generalize (twice (ex [])). intros m Hm E1 E2 V1%validb_spec V2%validb_spec. exact (ok_tri_unique m Hm _ _ _ V1 V2 E1 E2).
Qed.
Print Assumptions C49_passing_is_well_formed_refuted.

(** A mesh with 12 tets and locked elements passes, with its triangle map. *)
Example C49_witness : mesh_ok (ex ex_ops4) ∧ assert_integrity None (ex ex_ops4) = true ∧ assert_integrity (Some (positive (ex ex_ops1))) (ex ex_ops1) = true.
Proof. split; [apply reachable_ok, ex4_reachable|]. vm_compute. done. Qed.
