(** The 3-to-2 flip keeps the mesh consistent. *)
From stdpp Require Import base numbers list gmap option relations.
From Coq Require Import NArith ZArith ZifyN ZifyNat ZifyBool Lia.
From Verif Require Import IdMapModel IdMapSpec IdMapProofs IdMapMore WalkerModel WalkerSpec WalkerProofs SortProofs
  MeshModel WalkerMore MeshSpec MeshViews Surgery MeshLink MeshRun FlipBase FlipRun FlipSpec FlipCommon Flip32 Flip32Surg.
Local Open Scope nat_scope.

Section flip32ok.
  Context {V T : Type}.
  Implicit Types (m : mesh V T) (F G : N → tet T) (w u : walker) (L O K : gset N) (id : N).

  (** The edge p-q of [self], surrounded by three tets, is replaced by the triangle x, y, z. *)
  (** The triangles between the three replaced tets. *)
  Lemma gone32 L F self t v0 v1 v2 v3 v4 : vok L F → f32_ring L F self v0 v1 v2 v3 v4 → rn F (rn F (rn F self)) = self →
    (∃ w, vd L w ∧ tri3 (vv F w) = t) →
    gone_tri (f32_K F self) F t ↔ v3 ∈ [t.1.1; t.1.2; t.2] ∧ v4 ∈ [t.1.1; t.1.2; t.2].
  Proof.
    intros Hok Hring Hb (w0 & Hw0 & Et). pose proof (f32_ring_all L F self v0 v1 v2 v3 v4 Hok Hring Hb) as Hall.
    destruct Hring as [Hvd G0 G1 G2 (Q01&Q02&Q03&Q12&Q13&Q23&Q04&Q14&Q24&Q34) Hnd3 _].
    assert (∀ x, x ∈ list4 (t_vs (F (w_tet self))) ↔ x = v0 ∨ x = v1 ∨ x = v3 ∨ x = v4) as HV0.
    { intros x. rewrite <- (vv_elem F self) by apply (Hvd 0). rewrite G0, elem_list4. cbn. tauto. }
    assert (∀ x, x ∈ list4 (t_vs (F (w_tet (f32_r F self 1)))) ↔ x = v0 ∨ x = v2 ∨ x = v3 ∨ x = v4) as HV1.
    { intros x. rewrite <- (vv_elem F (f32_r F self 1)) by apply (Hvd 1). rewrite G1, elem_list4. cbn. tauto. }
    assert (∀ x, x ∈ list4 (t_vs (F (w_tet (f32_r F self 2)))) ↔ x = v1 ∨ x = v2 ∨ x = v3 ∨ x = v4) as HV2.
    { intros x. rewrite <- (vv_elem F (f32_r F self 2)) by apply (Hvd 2). rewrite G2, elem_list4. cbn. tauto. }
    assert (∀ id, id ∈ f32_K F self ↔ id = w_tet self ∨ id = w_tet (f32_r F self 1) ∨ id = w_tet (f32_r F self 2)) as HK.
    { intros id. unfold f32_K. rewrite elem_of_list_to_set, !elem_of_cons, elem_of_nil. tauto. }
    split.
    - intros (w & [Hw He] & Hin & <-). rewrite HK in Hw, Hin.
      assert (vd L w) as Hwv by (split; [destruct Hw as [-> | [-> | -> ]]; [apply (Hvd 0)|apply (Hvd 1)|apply (Hvd 2)]|done]).
      pose proof (av_other L F w Hok Hwv) as Hot.
      destruct (vo_adj _ _ Hok w Hwv) as [Ha (T1 & T2 & T3)].
      assert (∃ v, (v = v0 ∨ v = v1 ∨ v = v2) ∧ ∀ x, x ∈ [q0 (vv F w); q1 (vv F w); q2 (vv F w)] → x = v ∨ x = v3 ∨ x = v4) as (v & Hv & Hsub).
      { assert (∀ x, x ∈ [q0 (vv F w); q1 (vv F w); q2 (vv F w)] → x ∈ list4 (t_vs (F (w_tet w))) ∧ x ∈ list4 (t_vs (F (w_tet (av F w))))) as M.
        { intros x Hx. rewrite <- (vv_elem F w), <- (vv_elem F (av F w)) by (done || apply Ha). rewrite !elem_list4, T1, T2, T3.
          rewrite !elem_of_cons, elem_of_nil in Hx. clear -Hx. tauto. }
        destruct Hw as [Hw|[Hw|Hw]], Hin as [Hin|[Hin|Hin]]; rewrite Hw in M, Hot; rewrite Hin in M, Hot; try done;
          [exists v0|exists v1|exists v0|exists v2|exists v1|exists v2]; (split; [tauto|]); intros x Hx; destruct (M x Hx) as [M1 M2];
          rewrite ?HV0, ?HV1, ?HV2 in M1; rewrite ?HV0, ?HV1, ?HV2 in M2; clear -M1 M2 Q01 Q02 Q12 Q03 Q04 Q13 Q14 Q23 Q24; naive_solver. }
      pose proof (vv_distinct L F w Hok Hwv) as (Y1&Y2&_&Y3&_).
      unfold tri3. destruct (vv F w) as [x y z q]. cbn in *.
      pose proof (Hsub x ltac:(repeat constructor)) as Sx. pose proof (Hsub y ltac:(repeat constructor)) as Sy.
      pose proof (Hsub z ltac:(repeat constructor)) as Sz. clear -Sx Sy Sz Y1 Y2 Y3.
      rewrite !elem_of_cons, !elem_of_nil.
      destruct Sx as [-> | [-> | -> ]], Sy as [-> | [-> | -> ]], Sz as [-> | [-> | -> ]]; try done; tauto.
    - intros [H3 H4]. destruct (vo_adj _ _ Hok w0 Hw0) as [Ha (T1 & T2 & T3)]. subst t. unfold tri3 in H3, H4. cbn [fst snd] in H3, H4.
      exists w0. split; [|split; [|done]].
      + split; [|apply Hw0]. apply Hall; [apply Hw0| |]; rewrite <- (vv_elem F w0) by apply Hw0; rewrite elem_list4;
          [rewrite !elem_of_cons, elem_of_nil in H3|rewrite !elem_of_cons, elem_of_nil in H4]; tauto.
      + apply Hall; [apply Ha| |]; rewrite <- (vv_elem F (av F w0)) by apply Ha; rewrite elem_list4, T1, T2, T3;
          [rewrite !elem_of_cons, elem_of_nil in H3|rewrite !elem_of_cons, elem_of_nil in H4]; tauto.
  Qed.

  (** All three vertices in one tet: the triangle is one of its faces. *)
  Lemma tri_of_tet F id x y z : x ∈ list4 (t_vs (F id)) → y ∈ list4 (t_vs (F id)) → z ∈ list4 (t_vs (F id)) →
    x ≠ y → x ≠ z → y ≠ z → ∃ w, w_tet w = id ∧ w_edge w < 12 ∧ (tri3 (vv F w) = (x, y, z) ∨ tri3 (vv F w) = (y, x, z)).
  Proof.
    intros Hx Hy Hz N1 N2 N3. destruct (pair_of_tet F id x y Hx Hy N1) as (w & W1 & W2 & W3 & W4).
    rewrite <- W1 in Hz. rewrite <- (vv_elem F w) in Hz by done. rewrite elem_list4, W3, W4 in Hz.
    destruct Hz as [Hz|[Hz|[Hz|Hz]]]; [congruence|congruence| |].
    - exists w. split; [done|]. split; [done|]. left. unfold tri3. by rewrite W3, W4, Hz.
    - exists (to_twin_edge w). split; [done|]. split; [by apply to_twin_edge_ok|]. right. unfold tri3. rewrite vv_twin by done.
      cbn. by rewrite W3, W4, Hz.
  Qed.

  Lemma flip32_step m self other1 other2 p q x y z :
    mesh_ok m → valid m self → w_verts m self = Some (A4 p q x y) → ring_next m self = Some other1 →
    w_fourth m other1 = Some z → ring_next m other1 = Some other2 → ring_next m other2 = Some self →
    ¬ has_tri m x y z → 
    ∃ m' ws, flip32_unchecked m self = Some (m', ws) ∧ flip32_spec m self m' ws p q x y z other1 other2 ∧ mesh_ok m'.
  Proof.
    intros Hmok Hself Evs Er1 E4 Er2 Er3 Hnt.
    destruct (view_of m self Hself) as (L & F & Hmv).
    pose proof (ok_vmesh m L F Hmv Hmok) as Hvm. apply (mv_valid _ _ _ _ Hmv) in Hself.
    pose proof (vm_vok _ _ _ Hvm) as Hok.
    assert (∀ w, vd L w → ring_next m w = Some (rn F w) ∧ vd L (rn F w)) as Hrn.
    { intros w Hw. unfold ring_next, rn. rewrite (mv_adj _ _ _ _ Hmv) by (by apply vd_twin). split; [done|].
      apply (vo_adj _ _ Hok). by apply vd_twin. }
    destruct (Hrn self Hself) as [R1 V1]. destruct (Hrn _ V1) as [R2 V2]. destruct (Hrn _ V2) as [R3 _].
    rewrite R1 in Er1. injection Er1 as <-. rewrite R2 in Er2. injection Er2 as <-. rewrite R3 in Er3. injection Er3 as Hb.
    pose proof (f32_ring_of L F self Hok Hself Hb) as Hring.
    rewrite (mv_verts _ _ _ _ Hmv (proj1 Hself)) in Evs. apply (inj Some) in Evs.
    rewrite (mv_fourth _ _ _ _ Hmv (proj1 V1)) in E4. apply (inj Some) in E4.
    rewrite Evs, E4 in Hring. cbn [q0 q1 q2 q3] in Hring.
    destruct (flip32_run m L F self _ _ _ _ _ Hvm Hring) as (m' & G & E & Hres).
    pose proof (flip32_shape m L F self m' G _ _ _ _ _ Hvm Hring Hb Hres) as Hsh.
    pose proof (r32_rl _ _ _ _ _ _ Hres) as Hrl.
    pose proof (gone32 L F self) as Hgone0. specialize (λ t, Hgone0 t _ _ _ _ _ Hok Hring Hb) as Hgone. clear Hgone0.
    set (O := L ∖ _) in Hsh.
    assert (∀ id, id ∈ O → y ∈ list4 (t_vs (F id)) → x ∈ list4 (t_vs (F id)) → z ∈ list4 (t_vs (F id)) → False) as HntO.
    { intros id Hid Hy Hx Hz. unfold O in Hid. apply elem_of_difference in Hid as [Hid _].
      destruct (g32_nd _ _ _ _ _ _ _ _ Hring) as (N1&N2&_&N3&_).
      destruct (tri_of_tet F id x y z Hx Hy Hz ltac:(congruence) N3 N2) as (w & W1 & W2 & W3).
      assert (vd L w) as Hw by (split; [by rewrite W1|done]). apply Hnt. destruct W3 as [W3|W3].
      - exists w. split; [by apply (mv_valid _ _ _ _ Hmv)|]. rewrite (mv_tri _ _ _ _ Hmv) by apply Hw. f_equal. exact W3.
      - destruct (vo_adj _ _ Hok w Hw) as [Ha (T1 & T2 & T3)]. exists (av F w). split; [by apply (mv_valid _ _ _ _ Hmv)|].
        rewrite (mv_tri _ _ _ _ Hmv) by apply Ha. unfold tri3 in W3 |- *. rewrite T1, T2, T3. clear -W3. congruence. }
    pose proof (f32_surgery L F self G O _ _ _ _ _ _ Hok Hring Hrl Hsh HntO) as Hs.
    exists m'. eexists _. split; [exact E|]. clear E.
    destruct Hring as [Hvd G0 G1 G2 (Q01&Q02&Q03&Q12&Q13&Q23&Q04&Q14&Q24&Q34) Hnd3 _].
    destruct Hres as [Hst _ Hvr Hwe Hegone Heold Hnpie Hnpit Hgf Htr Hctr Htm].
    set (F' := ov _ G) in *.
    destruct Hsh as [Hat Hab F0 F1 HFO EL HD Hatt Habt HopO Hedge].
    assert (∀ id, id ∈ f32_K F self ↔ id = w_tet self ∨ id = w_tet (f32_r F self 1) ∨ id = w_tet (f32_r F self 2)) as HK.
    { intros id. unfold f32_K. rewrite elem_of_list_to_set, !elem_of_cons, elem_of_nil. clear. tauto. }
    assert (∀ id, id ∈ f32_K' F self ↔ id = w_tet self ∨ id = w_tet (f32_r F self 1)) as HK'.
    { intros id. unfold f32_K'. rewrite elem_of_list_to_set, !elem_of_cons, elem_of_nil. clear. tauto. }
    clearbody F'.
    pose proof (λ i Hi, proj1 (Hat i Hi)) as HatO. pose proof (λ i Hi, proj1 (Hab i Hi)) as HabO. clear Hat Hab.
    unfold f32_tet0 in F0. unfold f32_tet1 in F1. unfold f32_refs in Hvr.
    change (rn F self) with (f32_r F self 1) in *. change (rn F (f32_r F self 1)) with (f32_r F self 2) in *.
    rewrite G0, G1 in Hvr. cbn [q0 q1 q2 q3] in Hvr.
    set (K := f32_K F self) in *. set (K' := f32_K' F self) in *.
    set (o1 := f32_r F self 1) in *. set (o2 := f32_r F self 2) in *.
    set (id0 := w_tet self) in *. set (id1 := w_tet o1) in *. set (id2 := w_tet o2) in *.
    set (ed := uv F o2) in *.
    assert (∀ v, v ∈ list4 (t_vs (F id0)) ↔ v = y ∨ v = x ∨ v = p ∨ v = q) as HV0.
    { intros v. unfold id0. rewrite <- (vv_elem F self) by apply Hself. rewrite G0, elem_list4. cbn. clear. tauto. }
    assert (∀ v, v ∈ list4 (t_vs (F id1)) ↔ v = y ∨ v = z ∨ v = p ∨ v = q) as HV1.
    { intros v. unfold id1. rewrite <- (vv_elem F o1) by apply V1. rewrite G1, elem_list4. cbn. clear. tauto. }
    assert (∀ v, v ∈ list4 (t_vs (F id2)) ↔ v = x ∨ v = z ∨ v = p ∨ v = q) as HV2.
    { intros v. unfold id2. rewrite <- (vv_elem F o2) by apply V2. rewrite G2, elem_list4. cbn. clear. tauto. }
    assert (∀ t, gone_tri K F t → ∃ w, vd L w ∧ tri3 (vv F w) = t) as Hgex.
    { intros t (w & [Hw1 Hw2] & _ & Ht). exists w. split; [|done]. split; [|done]. rewrite EL. by apply elem_of_union_r. }
    assert (m_epair m ed = Some (sorted_2 (p, q))) as Eed.
    { unfold ed. rewrite (uv_slots L F (m_epair m) o2); [by rewrite G2|apply Hvm|done]. }
    clearbody K K' ed.
    pose proof Hnd3 as Hnd3'. apply NoDup_cons in Hnd3' as [D0 [D1 _]%NoDup_cons].
    apply not_elem_of_cons in D0 as [D01 [D02 _]%not_elem_of_cons]. apply not_elem_of_cons in D1 as [D12 _].
    assert (∀ v, v ∈ O → v ≠ id0 ∧ v ≠ id1 ∧ v ≠ id2) as HOne.
    { intros v Hv. assert (v ∉ K) as Hvk by (intros H; by apply (HD v)). rewrite HK in Hvk. clear -Hvk. tauto. }
    assert (L ∖ {[id2]} = O ∪ K') as EL'.
    { apply set_eq. intros v. rewrite EL, elem_of_difference, !elem_of_union, HK', HK, elem_of_singleton.
      pose proof (HOne v) as Hv. clear -Hv D02 D12. split; [tauto|]. intros [H|[-> | -> ]]; [|tauto..]. specialize (Hv H). tauto. }
    rewrite EL' in Hst. clearbody O. pose proof (proj1 Hst) as Hmv'.
    assert (id0 ∈ L ∧ id1 ∈ L ∧ id2 ∈ L) as (HidL0 & HidL1 & HidL2) by (split; [apply Hself|split; [apply V1|apply V2]]).
    assert (id0 ∈ O ∪ K' ∧ id1 ∈ O ∪ K') as (I0 & I1).
    { split; apply elem_of_union_r, HK'; clear; tauto. }
    split.
    { split; fold id0 id1 id2; cbn [fst snd].
      - rewrite (mv_verts _ _ _ _ Hmv) by done. by rewrite G0.
      - split; [done|]. rewrite (mv_verts _ _ _ _ Hmv) by done. by rewrite G1.
      - split; [done|]. rewrite (mv_verts _ _ _ _ Hmv) by done. by rewrite G2.
      - exact Hnd3.
      - split.
        + intros id. rewrite !elem_of_cons, elem_of_nil. intros [-> | [-> | [-> | []]]]; rewrite (mv_in _ _ _ _ Hmv) by done; eauto.
        + intros id vs Hin. rewrite !elem_of_cons, elem_of_nil in Hin.
          destruct Hin as [[= -> ->]|[[= -> ->]|[]]];
            rewrite (mv_in _ _ _ _ Hmv') by done; rewrite ?F0, ?F1; done.
        + intros id Hin Hn. cbn in Hn. rewrite !not_elem_of_cons in Hn. rewrite !elem_of_cons, elem_of_nil in Hin.
          apply (mv_out _ _ _ _ Hmv'). rewrite <- EL', elem_of_difference, elem_of_singleton. clear -Hin Hn. tauto.
        + intros id Hin Hn. cbn in Hin. rewrite !elem_of_cons, elem_of_nil in Hin. rewrite !not_elem_of_cons in Hn. clear -Hin Hn. tauto.
        + intros id H1 H2. rewrite !not_elem_of_cons in H1. destruct H1 as (H1a&H1b&H1c&_).
          rewrite (Hmv id), (Hmv' id). destruct (decide (id ∈ L)) as [Hin|Hout].
          * assert (id ∈ O) as HinO.
            { rewrite EL in Hin. apply elem_of_union in Hin as [?|?%HK]; [done|]. clear -H H1a H1b H1c. tauto. }
            rewrite decide_True by (by apply elem_of_union_l). cbn. rewrite HFO by done.
            destruct (rl_rest _ _ _ Hrl id) as (->&->&->&->). done.
          * rewrite decide_False; [done|]. intros [Hin|Hin%HK']%elem_of_union; [|clear -Hin H1a H1b; tauto].
            apply Hout. rewrite EL. by apply elem_of_union_l.
        + intros e' ue. destruct (decide (e' = ed)) as [->|Hout].
          * rewrite Hegone. split; [done|]. intros [[H1 H2]|(_ & H & _)]; [|done]. exfalso. apply H2.
            unfold m_epair in Eed. rewrite H1 in Eed. cbn in Eed. injection Eed as ->. apply elem_of_list_singleton. done.
          * rewrite Heold by done. split; [|by intros [[? _]|(H1 & H2 & _)]; congruence].
            intros H. left. split; [done|]. cbn. intros He%elem_of_list_singleton. apply Hout.
            apply (eo_inj _ _ _ (vm_eok _ _ _ Hvm) e' ed (sorted_2 (p, q))); [|done]. unfold m_epair. rewrite H. cbn. by f_equal.
        + apply (vr_rest _ _ _ Hvr).
        + done.
        + done.
        + done.
      - done.
      - repeat split; cbn [w_tet w_edge]; try (clear; lia); rewrite (mv_in _ _ _ _ Hmv') by done; eauto.
      - rewrite !(mv_verts _ _ _ _ Hmv') by done. unfold vv. cbn [w_tet w_edge]. rewrite F0, F1. done.
      - intros t. rewrite (locked_tri_view _ _ _ _ Hmv'), (locked_tri_view _ _ _ _ Hmv).
        assert (vok (O ∪ K) F) as Hok' by (by rewrite <- EL).
        rewrite (lock_surgery O K K' F F' Hok' Hs).
        + rewrite <- EL. split.
          * intros [H1 H2]. split; [done|]. intros Hc. apply H2. apply Hgone; [|done].
            destruct H1 as (w & ? & ? & _). by exists w.
          * intros [H1 H2]. split; [done|]. intros Hc. apply H2. apply Hgone; [|done]. by apply Hgex.
        + intros [id j] [Hu%HK' Hue] Hin. cbn [w_tet w_edge] in *. unfold lv. unfold av in Hin. rewrite rot_tet in Hin.
          cbn [w_tet w_edge] in *. pose proof (Nat.mod_upper_bound j 4 ltac:(clear; lia)) as Hj. remember (j mod 4) as j' eqn:Ej. clear Ej.
          assert (∀ v, v ∈ O → v ∉ K') as HnO.
          { intros v Hv Hv'%HK'. destruct (HOne v Hv) as (?&?&?). clear -Hv' H H0 H1. tauto. }
          assert (∀ i, i < 3 → w_tet (f32_at F self i) ∉ K') as M1 by (intros i Hi; apply HnO, HatO, Hi).
          assert (∀ i, i < 3 → w_tet (f32_ab F self i) ∉ K') as M2 by (intros i Hi; apply HnO, HabO, Hi).
          destruct Hu as [-> | -> ]; rewrite ?F0, ?F1 in Hin |- *;
            case4 j' Hj; cbn [t_opp t_flags f_locked lk4 get4 q0 q1 q2 q3] in Hin |- *; try reflexivity; exfalso; revert Hin;
            first [apply (M1 0); clear; lia|apply (M1 1); clear; lia|apply (M1 2); clear; lia
                  |apply (M2 0); clear; lia|apply (M2 1); clear; lia|apply (M2 2); clear; lia].
      - done.
      - apply (vr_npi _ _ _ Hvr). }
    apply (vmesh_ok m' (O ∪ K') F').
    rewrite EL in Hvm.
    assert (eok (O ∪ K) F (m_epair m)) as Heo by apply Hvm.
    assert (vok (O ∪ K) F) as Hok' by apply Hvm.
    assert (∀ e', e' ≠ ed → m_epair m' e' = m_epair m e') as Hep.
    { intros e' Hin. unfold m_epair. by rewrite Heold. }
    assert (m_epair m' ed = None) as Hep1.
    { unfold m_epair. by rewrite Hegone. }
    assert (∀ e' p', m_epair m e' = Some p' → p' ≠ sorted_2 (p, q) → m_epair m' e' = Some p') as Hep'.
    { intros e' p' H Hne. rewrite Hep; [done|]. intros ->. rewrite Eed in H. congruence. }
    assert (∀ u v : N, (u = x ∨ u = y ∨ u = z) → sorted_2 (u, v) ≠ sorted_2 (p, q) ∧ sorted_2 (v, u) ≠ sorted_2 (p, q)) as Hs2.
    { intros u v Hu. rewrite (sorted_2_comm v u). split; intros Hc; unfold sorted_2 in Hc; destruct (N.ltb v u), (N.ltb q p); injection Hc as <- <-;
      clear -Hu Q03 Q13 Q23 Q04 Q14 Q24; destruct Hu as [?|[?|?]]; congruence. }
    assert (∀ w (u v : N), w_tet w ∈ O → w_edge w < 12 → q0 (vv F w) = u → q1 (vv F w) = v → (u = x ∨ u = y ∨ u = z) ∨ (v = x ∨ v = y ∨ v = z) →
      m_epair m' (uv F w) = Some (sorted_2 (u, v))) as Huv.
    { intros w u v Hw He <- <- Hx. apply Hep'.
      - apply (uv_slots _ _ _ _ Heo). split; [by apply elem_of_union_l|done].
      - destruct Hx as [Hx|Hx]; [exact (proj1 (Hs2 _ _ Hx))|exact (proj2 (Hs2 _ _ Hx))]. }
    assert (∀ a (u v w : N), vd O a → tri3 (vv F a) = (u, v, w) → (u = x ∨ u = y ∨ u = z) → (v = x ∨ v = y ∨ v = z) →
      m_epair m' (uv F a) = Some (sorted_2 (u, v)) ∧
      m_epair m' (uv F (to_nfe a)) = Some (sorted_2 (v, w)) ∧
      m_epair m' (uv F (to_pfe a)) = Some (sorted_2 (w, u))) as Huv3.
    { intros a u v w [Hx1 Hx2] Ht Hu Hv. unfold tri3 in Ht. apply pair_equal_spec in Ht as [[Ha1 Ha2]%pair_equal_spec Ha3].
      split; [apply Huv; auto|].
      split; (apply Huv; [done|first [apply to_nfe_ok|apply to_pfe_ok]|rewrite ?vv_nfe, ?vv_pfe by done; done..|]); auto. }
    assert (p ≠ q) as Hpq by congruence.
    apply (vmesh_replace m m' O K K' F F' [id0; id1; id2] [id0; id1]
      [(y, Walker id0 3); (x, Walker id0 7); (z, Walker id0 11); (p, Walker id0 0); (q, Walker id1 0)] Hvm Hs Hst Hwe).
    - (* edges *)
      apply eok_intro.
      + intros id [Hid|Hid%HK']%elem_of_union.
        * rewrite HFO by done. destruct (rl_rest _ _ _ Hrl id) as (->&->&_).
          assert (∀ u v : N, u ∈ list4 (t_vs (F id)) → v ∈ list4 (t_vs (F id)) → u ≠ v → sorted_2 (u, v) ≠ sorted_2 (p, q)) as Hne.
          { intros u v Hu Hv Huv' Hc. pose proof (Hedge id Hid) as Hq. unfold sorted_2 in Hc.
            destruct (N.ltb v u), (N.ltb q p); injection Hc as <- <-; auto. }
          destruct (eok_slots _ _ _ id Heo) as (S0&S1&S2&S3&S4&S5); [by apply elem_of_union_l|].
          assert (NoDup (list4 (t_vs (F id)))) as Hndv.
          { apply (vo_nodup _ _ Hok'). by apply elem_of_union_l. }
          destruct (t_vs (F id)) as [b0 b1 b2 b3]. unfold list4 in Hndv. cbn in S0, S1, S2, S3, S4, S5, Hndv. apply NoDup4 in Hndv as (B1&B2&B3&B4&B5&B6).
          unfold edge_slots. cbn. repeat split; (apply Hep'; [assumption|]); apply Hne; try congruence; unfold list4; cbn; repeat constructor.
        * pose proof (λ i Hi, Huv3 _ _ _ _ (HatO i Hi) (Hatt i Hi)) as Ua. pose proof (λ i Hi, Huv3 _ _ _ _ (HabO i Hi) (Habt i Hi)) as Ub.
          destruct (Ua 0 ltac:(clear; lia)) as (A1 & A2 & A3); [cbn; clear; tauto..|].
          destruct (Ua 1 ltac:(clear; lia)) as (A4' & A5 & A6'); [cbn; clear; tauto..|].
          destruct (Ua 2 ltac:(clear; lia)) as (A7 & A8 & A9); [cbn; clear; tauto..|].
          destruct (Ub 0 ltac:(clear; lia)) as (B1 & B2 & B3); [cbn; clear; tauto..|].
          destruct (Ub 1 ltac:(clear; lia)) as (B4 & B5 & B6); [cbn; clear; tauto..|].
          destruct (Ub 2 ltac:(clear; lia)) as (B7 & B8 & B9); [cbn; clear; tauto..|].
          cbn [nth] in A1, A2, A3, A4', A5, A6', A7, A8, A9, B1, B2, B3, B4, B5, B6, B7, B8, B9.
          destruct Hid as [-> | -> ]; rewrite ?F0, ?F1; unfold edge_slots; cbn [t_vs t_edges s0 s1 s2 s3 s4 s5 q0 q1 q2 q3];
          repeat split; first [assumption|rewrite sorted_2_comm; assumption].
      + intros e1 e2 pr H1 H2.
        assert (e1 ≠ ed) as N1 by (intros ->; congruence). assert (e2 ≠ ed) as N2 by (intros ->; congruence).
        rewrite Hep in H1, H2 by done. by apply (eo_inj _ _ _ Heo e1 e2 pr).
      + intros e' u v He'.
        assert (e' ≠ ed) as N1 by (intros ->; congruence).
        rewrite Hep in He' by done. destruct (eok_used _ _ _ _ _ _ Hok' Heo He') as (id & Hid & Ha & Hbb & Hab).
        apply elem_of_union in Hid as [Hid|Hid].
        * exists id. rewrite (sg_vs _ _ _ _ _ Hs) by done. split; [by apply elem_of_union_l|done].
        * assert (∀ r, r ∈ list4 (t_vs (F id)) → r = x ∨ r = y ∨ r = z ∨ r = p ∨ r = q) as Hz.
          { intros r Hr. apply HK in Hid as [-> | [-> | -> ]]; rewrite ?HV0, ?HV1, ?HV2 in Hr; clear -Hr; tauto. }
          apply Hz in Ha, Hbb. clear Hz.
          assert (¬ (u = p ∧ v = q) ∧ ¬ (u = q ∧ v = p)) as [Hn1 Hn2].
          { pose proof (eo_sorted _ _ _ Heo _ _ _ He') as Hlt.
            split; intros [-> ->]; apply N1; apply (eo_inj _ _ _ Heo _ _ _ He'); rewrite Eed; f_equal; unfold sorted_2;
            [destruct (N.ltb_spec q p)|destruct (N.ltb_spec q p)]; first [done|exfalso; clear -Hlt H; lia]. }
          assert ((u ≠ q ∧ v ≠ q) ∨ (u ≠ p ∧ v ≠ p)) as [[M1 M2]|[M1 M2]].
          { clear -Hn1 Hn2 Hab Hpq. destruct (decide (u = q)) as [->|], (decide (v = q)) as [->|]; [done| | |by left]; right; split; intros ->; tauto. }
          -- exists id0. split; [done|]. rewrite !elem_list4, F0. cbn. clear -Ha Hbb M1 M2 Hab. tauto.
          -- exists id1. split; [done|]. rewrite !elem_list4, F1. cbn. clear -Ha Hbb M1 M2 Hab. tauto.
      + intros e' u v He'.
        assert (e' ≠ ed) as N1 by (intros ->; congruence).
        rewrite Hep in He' by done. by apply (eo_sorted _ _ _ Heo e').
    - done.
    - intros v. cbn. rewrite !elem_of_cons, elem_of_nil. split.
      + intros [(id & Hin%HK & Hin2)|(id & Hin%HK' & Hin2)].
        * destruct Hin as [-> | [-> | -> ]]; rewrite ?HV0, ?HV1, ?HV2 in Hin2; clear -Hin2; tauto.
        * destruct Hin as [-> | -> ]; rewrite ?F0, ?F1, elem_list4 in Hin2; cbn in Hin2; clear -Hin2; tauto.
      + intros H. left. destruct (decide (v = z)) as [->|Hvz].
        * exists id1. rewrite HK, HV1. clear. tauto.
        * exists id0. rewrite HK, HV0. clear -H Hvz. tauto.
    - intros v w Hv _. cbn in Hv. rewrite !elem_of_cons, elem_of_nil in Hv.
      assert (∀ i j, (i = id0 ∨ i = id1) → j < 12 → vd K' (Walker i j)) as Y.
      { intros i j Hi Hj. split; [by apply HK'|done]. }
      cbn [last_ref].
      destruct Hv as [-> | [-> | [-> | [-> | [-> | []]]]]]; repeat case_decide; try congruence;
        (split; [apply Y; [clear; tauto|clear; lia]|]); unfold vv; cbn [w_tet w_edge]; rewrite ?F0, ?F1; reflexivity.
    - intros v (id & Hid%HK' & Hin).
      assert (∃ id', id' ∈ K ∧ v ∈ list4 (t_vs (F id'))) as (id' & Hid' & Hin').
      { assert (v = y ∨ v = x ∨ v = z ∨ v = p ∨ v = q) as Hv.
        { destruct Hid as [-> | -> ]; rewrite ?F0, ?F1, elem_list4 in Hin; cbn in Hin; clear -Hin; tauto. }
        destruct (decide (v = z)) as [->|Hvz].
        - exists id1. rewrite HK, HV1. clear. tauto.
        - exists id0. rewrite HK, HV0. clear -Hv Hvz. tauto. }
      destruct (first_of_tet F id' v Hin') as (w & W1 & W2 & W3). rewrite <- W3. apply (vm_ex _ _ _ Hvm).
      split; [rewrite W1; by apply elem_of_union_r|done].
    - intros id. rewrite HK, !elem_of_cons, elem_of_nil. clear. tauto.
    - intros id. rewrite HK', !elem_of_cons, elem_of_nil. clear. tauto.
    - done.
    - done.
  Qed.
End flip32ok.
