(** The mesh made from four points. *)
From stdpp Require Import base numbers list gmap option relations.
From Coq Require Import NArith ZArith ZifyN ZifyNat ZifyBool Lia.
From Verif Require Import IdMapModel IdMapSpec IdMapProofs WalkerModel WalkerSpec MeshModel MeshOps MeshSpec FlipSpec
  MeshCheck Integrity GeoModel HistSpec HistCheck History.
Local Open Scope nat_scope.

Section new.
  Context {V T : Type}.
  Implicit Types (m : mesh V T) (w : walker).

  Definition new_check (o : bool) m : bool :=
    eqb (num_vertices m) (Some 4%N) && eqb (num_tets m) (Some 5%N) &&
    eqb (t_vs <$> tet_get m 0%N) (Some (if o then A4 0 1 2 3 else A4 0 1 3 2))%N &&
    eqb (t_vs <$> tet_get m 1%N) (Some (if o then A4 1 2 3 GHOST else A4 1 3 2 GHOST))%N &&
    eqb (t_vs <$> tet_get m 2%N) (Some (if o then A4 0 3 2 GHOST else A4 0 2 3 GHOST))%N &&
    eqb (t_vs <$> tet_get m 3%N) (Some (if o then A4 3 0 1 GHOST else A4 2 0 1 GHOST))%N &&
    eqb (t_vs <$> tet_get m 4%N) (Some (if o then A4 2 1 0 GHOST else A4 3 1 0 GHOST))%N &&
    all (mkeys (im_slots (m_tets m))) (λ k, memb k [0; 1; 2; 3; 4]%N) &&
    all (walkers m) (λ w, eqb (w_locked m w) (Some false)) &&
    all (mkeys (im_slots (m_verts m))) (λ k, attachedb m k) &&
    all (im_values (m_edges m)) (λ ue, negb (ue_locked ue)) &&
    eqb (m_track m) false && N.leb (im_npi (m_tets m)) 5 && N.leb (im_npi (m_edges m)) 10 && N.leb (im_npi (m_verts m)) 4.


  Lemma new_facts sim ctr (ps : arr4 (pt * V)) (d : T) : ∃ m, mesh_new sim ctr ps d = Some m ∧ mesh_ok m ∧
    new_check (sim (q0 ps).1 (q1 ps).1 (q2 ps).1 (q3 ps).1) m = true ∧
    (∀ i, i < 4 → (λ vt, (v_pos vt, v_val vt)) <$> im_get (m_verts m) (N.of_nat i) = Some (get4 ps i)) ∧
    m_center m = if sim (q0 ps).1 (q1 ps).1 (q2 ps).1 (q3 ps).1 then ctr (q0 ps).1 (q1 ps).1 (q2 ps).1 (q3 ps).1
                 else ctr (q0 ps).1 (q1 ps).1 (q3 ps).1 (q2 ps).1.
  Proof.
    destruct (mesh_new_ok sim ctr ps d) as (m & E & Hok). exists m. split; [done|]. split; [done|].
    destruct ps as [[a0 b0] [a1 b1] [a2 b2] [a3 b3]]. cbn [q0 q1 q2 q3 fst].
    assert (match mesh_new sim ctr (A4 (a0, b0) (a1, b1) (a2, b2) (a3, b3)) d with
            | Some m => new_check (sim a0 a1 a2 a3) m | None => false end = true) as H1.
    { clear. unfold mesh_new. cbn [get4 fst q0 q1 q2 q3]. destruct (sim _ _ _ _); vm_compute; reflexivity. }
    assert (match mesh_new sim ctr (A4 (a0, b0) (a1, b1) (a2, b2) (a3, b3)) d with
            | Some m => (λ vt, (v_pos vt, v_val vt)) <$> im_get (m_verts m) 0%N = Some (a0, b0) ∧
                        (λ vt, (v_pos vt, v_val vt)) <$> im_get (m_verts m) 1%N = Some (a1, b1) ∧
                        (λ vt, (v_pos vt, v_val vt)) <$> im_get (m_verts m) 2%N = Some (a2, b2) ∧
                        (λ vt, (v_pos vt, v_val vt)) <$> im_get (m_verts m) 3%N = Some (a3, b3) ∧
                        m_center m = if sim a0 a1 a2 a3 then ctr a0 a1 a2 a3 else ctr a0 a1 a3 a2
            | None => False end) as H2.
    { clear. unfold mesh_new. cbn [get4 fst q0 q1 q2 q3]. destruct (sim a0 a1 a2 a3); vm_compute; repeat split; reflexivity. }
    rewrite E in H1, H2. split; [done|]. destruct H2 as (P0 & P1 & P2 & P3 & P4). split; [|done].
    intros i Hi. destruct i as [|[|[|[|i]]]]; [done..|lia].
  Qed.

  Lemma new_unpack o m : mesh_ok m → new_check o m = true →
    num_vertices m = Some 4%N ∧ num_tets m = Some 5%N ∧
    (∀ id, is_Some (tet_get m id) ↔ id ∈ [0; 1; 2; 3; 4]%N) ∧
    t_vs <$> tet_get m 0%N = Some (if o then A4 0 1 2 3 else A4 0 1 3 2)%N ∧
    (t_vs <$> tet_get m 1%N = Some (if o then A4 1 2 3 GHOST else A4 1 3 2 GHOST)%N ∧
     t_vs <$> tet_get m 2%N = Some (if o then A4 0 3 2 GHOST else A4 0 2 3 GHOST)%N ∧
     t_vs <$> tet_get m 3%N = Some (if o then A4 3 0 1 GHOST else A4 2 0 1 GHOST)%N ∧
     t_vs <$> tet_get m 4%N = Some (if o then A4 2 1 0 GHOST else A4 3 1 0 GHOST)%N) ∧
    (∀ t, ¬ locked_tri m t) ∧ (∀ a b, ¬ locked_edge m a b) ∧ all_attached m ∧ m_track m = false ∧
    (im_npi (m_tets m) ≤ 5 ∧ im_npi (m_edges m) ≤ 10 ∧ im_npi (m_verts m) ≤ 4)%N.
  Proof.
    intros Hok. unfold new_check. rewrite !andb_true_iff, !all_spec, !N.leb_le.
    intros [[[[[[[[[[[[[[H1%eqb_eq H2%eqb_eq] T0%eqb_eq] T1%eqb_eq] T2%eqb_eq] T3%eqb_eq] T4%eqb_eq] H3] H4] H5] H6] H7%eqb_eq] H8] H9] H10].
    assert (∀ id, is_Some (tet_get m id) ↔ id ∈ [0; 1; 2; 3; 4]%N) as Hids.
    { intros id. split.
      - intros Hid. apply memb_spec, H3, mkeys_spec, Hid.
      - assert (∀ id vs, t_vs <$> tet_get m id = Some vs → is_Some (tet_get m id)) as Hx.
        { intros k vs E. destruct (tet_get m k); [eauto|done]. }
        intros Hid. rewrite !elem_of_cons, elem_of_nil in Hid.
        destruct Hid as [->|[->|[->|[->|[->|[]]]]]]; eapply Hx; eassumption. }
    do 3 (split; [done|]). do 2 (split; [done|]).
    split; [|split; [|split; [|split; [done|done]]]].
    - intros t (w & Hw & _ & Hl). apply walkers_spec in Hw. specialize (H4 w Hw). apply eqb_eq in H4. congruence.
    - intros a b (e & ue & E & _ & Hl). specialize (H6 ue). rewrite Hl in H6. cbn in H6. discriminate H6.
      unfold im_values. apply elem_of_list_fmap. exists (e, ue). split; [done|]. by apply (elem_of_im_iter _ _ _ (ok_ids_edges _ Hok)).
    - intros v Hv. apply attachedb_spec, H5, mkeys_spec, Hv.
  Qed.

  (** ** Orientation. *)
  Local Open Scope Z_scope.
  Lemma orient_centroid p0 p1 p2 p3 c : vadd (vadd (vadd p0 p1) p2) p3 = Pt (4 * px c) (4 * py c) (4 * pz c) →
    4 * orient p1 p2 p3 c = - orient p0 p1 p2 p3 ∧ 4 * orient p0 p3 p2 c = - orient p0 p1 p2 p3 ∧
    4 * orient p3 p0 p1 c = - orient p0 p1 p2 p3 ∧ 4 * orient p2 p1 p0 c = - orient p0 p1 p2 p3.
  Proof.
    destruct p0 as [x0 y0 z0], p1 as [x1 y1 z1], p2 as [x2 y2 z2], p3 as [x3 y3 z3], c as [x y z].
    unfold vadd, orient, vdot, vcross, vsub. cbn [px py pz]. intros H. injection H as Hx Hy Hz.
    assert (x3 = 4 * x - x0 - x1 - x2) as -> by lia. assert (y3 = 4 * y - y0 - y1 - y2) as -> by lia.
    assert (z3 = 4 * z - z0 - z1 - z2) as -> by lia. repeat split; ring.
  Qed.
  Lemma orient_swap p0 p1 p2 p3 : orient p0 p1 p3 p2 = - orient p0 p1 p2 p3.
  Proof. destruct p0, p1, p2, p3. unfold orient, vdot, vcross, vsub. cbn. ring. Qed.

  Lemma orient_swap12 p0 p1 p2 p3 : orient p0 p2 p1 p3 = - orient p0 p1 p2 p3.
  Proof. destruct p0, p1, p2, p3. unfold orient, vdot, vcross, vsub. cbn. ring. Qed.

  (** The orientation test of [assert_integrity] (src/tet.rs 3627-3637). *)
  Definition positive m (vs : arr4 N) : bool :=
    match orient_3d m (q0 vs) (q1 vs) (q2 vs) (q3 vs) with Some z => 0 <? z | None => false end.

  Lemma new_integrity sim ctr (ps : arr4 (pt * V)) (d : T) m : mesh_new sim ctr ps d = Some m → assert_integrity None m = true.
  Proof.
    intros E. destruct (new_facts sim ctr ps d) as (m' & E' & Hok & Hc & _). rewrite E in E'. injection E' as <-.
    destruct (new_unpack _ _ Hok Hc) as (_ & _ & Hids & _ & _ & _ & _ & Hall & _ & Hn & _).
    apply integrity_holds; [done|done| |done]. apply room_no_invalid; [done|]. unfold invalid_id. lia.
  Qed.

  Lemma new_positive sim ctr (ps : arr4 (pt * V)) (d : T) m :
    let p i := (get4 ps i).1 in
    mesh_new sim ctr ps d = Some m →
    orient (p 0%nat) (p 1%nat) (p 2%nat) (p 3%nat) ≠ 0 →
    (sim (p 0%nat) (p 1%nat) (p 2%nat) (p 3%nat) = true ↔ 0 < orient (p 0%nat) (p 1%nat) (p 2%nat) (p 3%nat)) →
    (∃ z, orient_3d m 0 1 2 3 = Some z ∧ z = orient (p 0%nat) (p 1%nat) (p 2%nat) (p 3%nat)) ∧
    (∀ t, tet_get m 0%N = Some t → positive m (t_vs t) = true) ∧
    (vadd (vadd (vadd (p 0%nat) (p 1%nat)) (p 2%nat)) (p 3%nat) = Pt (4 * px (m_center m)) (4 * py (m_center m)) (4 * pz (m_center m)) →
     (∀ id t, tet_get m id = Some t → positive m (t_vs t) = true) ∧
     assert_integrity (Some (positive m)) m = true).
  Proof.
    intros p E Hne Hsim. pose proof (new_integrity _ _ _ _ _ E) as Hint.
    destruct (new_facts sim ctr ps d) as (m' & E' & Hok & Hc & Hpos & _). rewrite E in E'. injection E' as <-.
    destruct (new_unpack _ _ Hok Hc) as (_ & _ & Hids & T0 & (T1 & T2 & T3 & T4) & _ & _ & Hall & _ & Hn & _).
    assert (∀ i, (i < 4)%nat → idx_ori m (N.of_nat i) = Some (p i)) as Hidx.
    { intros i Hi. unfold idx_ori. specialize (Hpos i Hi).
      destruct (N.eqb_spec (N.of_nat i) GHOST) as [Hg|Hg]; [unfold GHOST, invalid_id in Hg; lia|].
      destruct (im_get (m_verts m) (N.of_nat i)) as [vt|]; [|done]. cbn in Hpos |- *. apply (inj Some) in Hpos. unfold p.
      by rewrite <- Hpos. }
    pose proof (Hidx 0%nat ltac:(lia)) as I0. pose proof (Hidx 1%nat ltac:(lia)) as I1.
    pose proof (Hidx 2%nat ltac:(lia)) as I2. pose proof (Hidx 3%nat ltac:(lia)) as I3.
    change (N.of_nat 0) with 0%N in I0. change (N.of_nat 1) with 1%N in I1. change (N.of_nat 2) with 2%N in I2. change (N.of_nat 3) with 3%N in I3.
    assert (idx_ori m GHOST = Some (m_center m)) as Ic by (unfold idx_ori; by rewrite N.eqb_refl).
    assert (sim (q0 ps).1 (q1 ps).1 (q2 ps).1 (q3 ps).1 = sim (p 0%nat) (p 1%nat) (p 2%nat) (p 3%nat)) as Es by done.
    rewrite Es in T0, T1, T2, T3, T4. clear Es Hc.
    set (o := sim (p 0%nat) (p 1%nat) (p 2%nat) (p 3%nat)) in *.
    assert (∀ t, tet_get m 0%N = Some t → positive m (t_vs t) = true) as Hp0.
    { intros t Ht. rewrite Ht in T0. cbn in T0. apply (inj Some) in T0. rewrite T0. unfold positive.
      destruct o; cbn [q0 q1 q2 q3]; unfold orient_3d; rewrite I0, I1, I2, I3; cbn -[orient Z.mul];
        apply Z.ltb_lt; [|rewrite orient_swap]; revert Hsim Hne; generalize (orient (p 0%nat) (p 1%nat) (p 2%nat) (p 3%nat)); clear; intros z Hs Hne.
      - pose proof (proj1 Hs eq_refl). lia.
      - destruct (Z.lt_trichotomy z 0) as [H|[H|H]]; [lia|done|]. discriminate (proj2 Hs H). }
    split.
    { eexists. unfold orient_3d. rewrite I0, I1, I2, I3. cbn -[orient Z.mul]. split; [reflexivity|]. lia. }
    split; [done|]. intros Hctr.
    assert (∀ id t, tet_get m id = Some t → positive m (t_vs t) = true) as Hpall.
    { intros id t Ht. assert (id ∈ [0; 1; 2; 3; 4]%N) as Hid by (apply Hids; eauto).
      destruct (orient_centroid _ _ _ _ _ Hctr) as (C1 & C2 & C3 & C4).
      rewrite !elem_of_cons, elem_of_nil in Hid. destruct Hid as [->|[->|[->|[->|[->|[]]]]]]; [by apply Hp0|..].
      all: first [rewrite Ht in T1; cbn in T1; apply (inj Some) in T1; rewrite T1 |
                  rewrite Ht in T2; cbn in T2; apply (inj Some) in T2; rewrite T2 |
                  rewrite Ht in T3; cbn in T3; apply (inj Some) in T3; rewrite T3 |
                  rewrite Ht in T4; cbn in T4; apply (inj Some) in T4; rewrite T4].
      all: unfold positive; destruct o; cbn [q0 q1 q2 q3]; unfold orient_3d;
        rewrite ?I0, ?I1, ?I2, ?I3, Ic; cbn -[orient Z.mul GHOST]; rewrite ?N.eqb_refl, ?orb_true_r; apply Z.ltb_lt.
      all: pose proof (orient_swap12 (p 1%nat) (p 2%nat) (p 3%nat) (m_center m));
        pose proof (orient_swap12 (p 0%nat) (p 3%nat) (p 2%nat) (m_center m));
        pose proof (orient_swap12 (p 3%nat) (p 0%nat) (p 1%nat) (m_center m));
        pose proof (orient_swap12 (p 2%nat) (p 1%nat) (p 0%nat) (m_center m)).
      all: clear -Hsim Hne C1 C2 C3 C4 H H0 H1 H2; clearbody p.
      all: revert Hsim Hne C1 C2 C3 C4 H H0 H1 H2; generalize (orient (p 0%nat) (p 1%nat) (p 2%nat) (p 3%nat));
        generalize (orient (p 1%nat) (p 2%nat) (p 3%nat) (m_center m)); generalize (orient (p 1%nat) (p 3%nat) (p 2%nat) (m_center m));
        generalize (orient (p 0%nat) (p 3%nat) (p 2%nat) (m_center m)); generalize (orient (p 0%nat) (p 2%nat) (p 3%nat) (m_center m));
        generalize (orient (p 3%nat) (p 0%nat) (p 1%nat) (m_center m)); generalize (orient (p 3%nat) (p 1%nat) (p 0%nat) (m_center m));
        generalize (orient (p 2%nat) (p 1%nat) (p 0%nat) (m_center m)); generalize (orient (p 2%nat) (p 0%nat) (p 1%nat) (m_center m)).
      all: clear; intros a b c d e f g h z [Hs1 Hs2] Hne; intros; destruct (Z.lt_trichotomy z 0) as [Hz|[Hz|Hz]]; [|done|];
        first [discriminate (Hs2 Hz) | specialize (Hs1 eq_refl); lia | lia]. }
    split; [done|]. apply integrity_holds; [done|done| |].
    - apply room_no_invalid; [done|]. unfold invalid_id. lia.
    - intros f Hf. injection Hf as <-. done.
  Qed.
End new.
