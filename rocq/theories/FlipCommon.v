(** Consequences of a replacement shared by all flips. *)
From stdpp Require Import base numbers list gmap option relations fin_sets.
From Coq Require Import NArith ZArith ZifyN ZifyNat ZifyBool Lia.
From Verif Require Import IdMapModel IdMapSpec IdMapProofs IdMapMore WalkerModel WalkerSpec WalkerProofs SortProofs
  MeshModel WalkerMore MeshSpec MeshViews Surgery MeshLink MeshRun FlipBase FlipSpec.
Local Open Scope nat_scope.

Section common.
  Context {V T : Type}.
  Implicit Types (m : mesh V T) (F G : N → tet T) (w u : walker) (L O K : gset N) (id : N).

  Lemma corners_perm (a b c x y z : N) : x ≠ y → x ≠ z → y ≠ z → same_corners (x, y, z) (a, b, c) →
    (x, y, z) = (a, b, c) ∨ (x, y, z) = (b, c, a) ∨ (x, y, z) = (c, a, b) ∨
    (x, y, z) = (b, a, c) ∨ (x, y, z) = (a, c, b) ∨ (x, y, z) = (c, b, a).
  Proof.
    intros H1 H2 H3 Hc. unfold same_corners in Hc. cbn in Hc.
    pose proof (proj1 (Hc x)) as X. pose proof (proj1 (Hc y)) as Y. pose proof (proj1 (Hc z)) as Z.
    rewrite !elem_of_cons, !elem_of_nil in X, Y, Z. clear Hc.
    destruct X as [-> | [-> | [-> | []]]]; [tauto| | |]; (destruct Y as [-> | [-> | [-> | []]]]; [tauto| | |]);
    (destruct Z as [-> | [-> | [-> | []]]]; [tauto| | |]); try done; tauto.
  Qed.
  Lemma vv_distinct L F w : vok L F → vd L w →
    q0 (vv F w) ≠ q1 (vv F w) ∧ q0 (vv F w) ≠ q2 (vv F w) ∧ q0 (vv F w) ≠ q3 (vv F w) ∧
    q1 (vv F w) ≠ q2 (vv F w) ∧ q1 (vv F w) ≠ q3 (vv F w) ∧ q2 (vv F w) ≠ q3 (vv F w).
  Proof.
    intros Hok Hw. pose proof (vv_nodup F w (proj2 Hw) (vo_nodup _ _ Hok _ (proj1 Hw))) as H.
    by apply NoDup4 in H.
  Qed.

  (** ** Locks. *)
  Section locks.
    Context (O K K' : gset N) (F F' : N → tet T).
    Context (Hok : vok (O ∪ K) F) (Hs : surgery O K F K' F').
    Context (Hinner : ∀ u, vd K' u → w_tet (av F' u) ∈ K' → lv F' u = false).
    (** A triangle between two replaced tets. *)
    Definition gone_tri (t : N * N * N) : Prop :=
      ∃ w, vd K w ∧ w_tet (av F w) ∈ K ∧ tri3 (vv F w) = t.

    Lemma lock_surgery t :
      (∃ u, vd (O ∪ K') u ∧ tri3 (vv F' u) = t ∧ lv F' u = true) ↔
      (∃ w, vd (O ∪ K) w ∧ tri3 (vv F w) = t ∧ lv F w = true) ∧ ¬ gone_tri t.
    Proof.
      assert (∀ w, vd O w → vd (O ∪ K) w) as HO by (intros w [??]; split; [by apply elem_of_union_l|done]).
      assert (∀ w, vd K w → vd (O ∪ K) w) as HK by (intros w [??]; split; [by apply elem_of_union_r|done]).
      assert (∀ w, vd O w → vv F' w = vv F w ∧ lv F' w = lv F w) as Hsame.
      { intros w [Hw _]. unfold vv, lv. by rewrite (sg_vs _ _ _ _ _ Hs), (sg_lk _ _ _ _ _ Hs) by done. }
      split.
      - intros (u & [[Hu|Hu]%elem_of_union He] & Ht & Hl).
        + destruct (Hsame u) as [E1 E2]; [by split|]. rewrite E1 in Ht. rewrite E2 in Hl. split.
          * exists u. split; [apply HO; by split|done].
          * intros (w & Hw & _ & Ew). assert (w = u) as ->.
            { apply (vo_uniq _ _ Hok); [by apply HK|apply HO; by split|congruence]. }
            by apply (sg_disj _ _ _ _ _ Hs (w_tet u)); [|apply Hw].
        + destruct (sg_in _ _ _ _ _ Hs u) as [(H1 & _)|(H1 & H2 & H3)]; [by split| |].
          { rewrite Hinner in Hl; [done|by split|apply H1]. }
          set (r := av F' u) in *.
          destruct (sg_bd _ _ _ _ _ Hs r H1 H2) as (B1 & B2 & B3). rewrite H3 in B1, B2, B3.
          destruct (vo_adj _ _ Hok r (HO r H1)) as [C1 C2].
          assert (tri3 (vv F (av F r)) = t) as Et.
          { rewrite <- Ht. eapply twist_tri; [exact C2|exact B2]. }
          assert (lv F (av F r) = true) as El.
          { rewrite (vo_lock _ _ Hok) by (by apply HO). congruence. }
          split; [by exists (av F r)|].
          intros (w & Hw & Hwk & Ew). assert (w = av F r) as ->.
          { apply (vo_uniq _ _ Hok); [by apply HK|done|congruence]. }
          rewrite (av_av _ _ _ Hok) in Hwk by (by apply HO).
          by apply (sg_disj _ _ _ _ _ Hs (w_tet r)); [apply H1|].
      - intros [(w & [[Hw|Hw]%elem_of_union He] & Ht & Hl) Hn].
        + exists w. destruct (Hsame w) as [E1 E2]; [by split|]. rewrite E1, E2.
          split; [split; [by apply elem_of_union_l|done]|done].
        + assert (vd (O ∪ K) w) as Hwv by (apply HK; by split).
          destruct (vo_adj _ _ Hok w Hwv) as [[[C0|C0]%elem_of_union C1] C2].
          2:{ exfalso. apply Hn. exists w. done. }
          set (r := av F w) in *. assert (vd O r) as Hr by by split.
          assert (av F r = w) as Er by by apply (av_av (O ∪ K)).
          destruct (sg_bd _ _ _ _ _ Hs r Hr) as (B1 & B2 & B3); [by rewrite Er|].
          exists (av F' r). split; [split; [apply elem_of_union_r, B1|apply B1]|]. split.
          * rewrite <- Ht. apply (twist_tri (vv F r)); [done|by apply twist_sym].
          * rewrite B3. unfold r. by rewrite (vo_lock _ _ Hok).
    Qed.
  End locks.

  Lemma locked_tri_view m L F t : mv m L F →
    locked_tri m t ↔ ∃ w, vd L w ∧ tri3 (vv F w) = t ∧ lv F w = true.
  Proof.
    intros Hmv. unfold locked_tri. split.
    - intros (w & Hw%(mv_valid _ _ _ _ Hmv) & E1 & E2). exists w.
      rewrite (mv_tri _ _ _ _ Hmv) in E1 by apply Hw. rewrite (mv_locked _ _ _ _ Hmv) in E2 by apply Hw.
      split; [done|]. split; congruence.
    - intros (w & Hw & E1 & E2). exists w. split; [by apply (mv_valid _ _ _ _ Hmv)|].
      rewrite (mv_tri _ _ _ _ Hmv) by apply Hw. rewrite (mv_locked _ _ _ _ Hmv) by apply Hw.
      split; congruence.
  Qed.
  Lemma has_tet_view m L F vs : mv m L F → has_tet m vs ↔ ∃ w, vd L w ∧ vv F w = vs.
  Proof.
    intros Hmv. unfold has_tet. split.
    - intros (w & Hw%(mv_valid _ _ _ _ Hmv) & E1). exists w.
      rewrite (mv_verts _ _ _ _ Hmv) in E1 by apply Hw. split; [done|]. congruence.
    - intros (w & Hw & E1). exists w. split; [by apply (mv_valid _ _ _ _ Hmv)|].
      rewrite (mv_verts _ _ _ _ Hmv) by apply Hw. congruence.
  Qed.

  Lemma view_of m w : valid m w → ∃ L F, mv m L F.
  Proof. intros [[t Ht] _]. eexists _, _. by apply (mv_exists m (w_tet w) t). Qed.

  (** ** Counting. *)
  Lemma mv_dom m L F : mv m L F → dom (im_slots (m_tets m)) = L.
  Proof.
    intros Hmv. apply set_eq. intros x. rewrite elem_of_dom. pose proof (Hmv x) as H.
    unfold tet_get, im_get in H. rewrite H. destruct (decide (x ∈ L)); split; try done; [by intros [? ?]].
  Qed.
  Lemma num_tets_view m L F : mv m L F → im_wf (m_tets m) → num_tets m = Some (N.of_nat (size L)).
  Proof.
    intros Hmv Hwf. unfold num_tets. rewrite wf_len by done. by rewrite <- (mv_dom m L F Hmv), size_dom.
  Qed.

  (** ** Assembling the consistency of the new mesh. *)
  Lemma vmesh_replace m m' O K K' F F' lK lK' refs :
    vmesh m (O ∪ K) F → surgery O K F K' F' → tst m' (O ∪ K') F' →
    im_wf (m_edges m') → eok (O ∪ K') F' (m_epair m') →
    vrel (m_verts m) (m_verts m') refs →
    (∀ v, (∃ id, id ∈ K ∧ v ∈ list4 (t_vs (F id))) ∨ (∃ id, id ∈ K' ∧ v ∈ list4 (t_vs (F' id))) ↔ v ∈ refs.*1) →
    (∀ v w, v ∈ refs.*1 → is_Some (im_get (m_verts m) v) → vd K' (last_ref refs v w) ∧ q0 (vv F' (last_ref refs v w)) = v) →
    (∀ v, (∃ id, id ∈ K' ∧ v ∈ list4 (t_vs (F' id))) → v = GHOST ∨ is_Some (im_get (m_verts m) v)) →
    (∀ id, id ∈ lK ↔ id ∈ K) → (∀ id, id ∈ lK' ↔ id ∈ K') → m_track m' = m_track m →
    (m_track m = true → tmrel F lK F' lK' (m_trimap m) (m_trimap m')) →
    vmesh m' (O ∪ K') F'.
  Proof.
    intros Hvm Hs Hst Hwe Heo Hvr Hrefs Hlast Hex' HlK HlK' Htr Htm.
    destruct Hvm as [Hmv Hwv Hwe0 Hwt Hg Hok Hex Heo0 Hvr0 Htm0].
    pose proof (surgery_vok _ _ _ _ _ Hok Hs) as Hok'.
    split; try done.
    - apply Hst.
    - apply (vr_wf _ _ _ Hvr).
    - apply Hst.
    - apply eq_None_not_Some. rewrite (vrel_is_Some _ _ _ GHOST Hvr). rewrite Hg. by intros [? ?].
    - intros w [[Hw|Hw]%elem_of_union He].
      + destruct (Hex w) as [E|E]; [split; [by apply elem_of_union_l|done]|left|right].
        * rewrite <- E. unfold vv. by rewrite (sg_vs _ _ _ _ _ Hs).
        * rewrite (vrel_is_Some _ _ _ _ Hvr). unfold vv. by rewrite (sg_vs _ _ _ _ _ Hs).
      + destruct (Hex' (q0 (vv F' w))) as [E|E]; [|by left|right; by rewrite (vrel_is_Some _ _ _ _ Hvr)].
        exists (w_tet w). split; [done|]. rewrite <- (vv_elem F' w) by done. rewrite elem_list4. by left.
    - apply (vrok_surgery O K K' F F' (m_vref m)); [done|apply (sg_vs _ _ _ _ _ Hs)|done| | |].
      + intros v w Hw Hin. assert (v ∈ refs.*1) as Hv by (apply Hrefs; by right).
        unfold m_vref in Hw. rewrite (vr_ref _ _ _ Hvr v) in Hw.
        destruct (im_get (m_verts m) v) as [vt|] eqn:E; [|done]. cbn in Hw. injection Hw as <-.
        destruct (Hlast v (v_tet vt) Hv) as [H1 H2]; [by eexists|].
        split; [split; [apply elem_of_union_r, H1|apply H1]|done].
      + intros v w Hw H1 H2. assert (v ∉ refs.*1) as Hv.
        { rewrite <- Hrefs. intros [(id & Hid & Hv)|(id & Hid & Hv)]; [by apply (H1 id)|by apply (H2 id)]. }
        unfold m_vref in Hw |- *. rewrite (vr_ref _ _ _ Hvr v) in Hw.
        destruct (im_get (m_verts m) v) as [vt|]; [|done]. cbn in Hw |- *. rewrite last_ref_out in Hw by done. done.
      + intros v id Hid Hv. destruct (sg_Xv _ _ _ _ _ Hs id v Hid Hv) as [H|H]; [by left|right].
        intros id1 Hid1 Hv1. by apply (H id1).
    - rewrite Htr. intros Ht. eapply tmrel_ok; [exact Hok|exact Hok'|apply Hs|apply Hs|apply Hs|exact HlK|exact HlK'|by apply Htm0|by apply Htm].
  Qed.
End common.
