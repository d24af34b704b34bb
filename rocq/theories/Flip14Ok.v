(** The 1-to-4 flip keeps the mesh consistent. *)
From stdpp Require Import base numbers list gmap option relations.
From Coq Require Import NArith ZArith ZifyN ZifyNat ZifyBool Lia.
From Verif Require Import IdMapModel IdMapSpec IdMapProofs IdMapMore WalkerModel WalkerSpec WalkerProofs SortProofs
  MeshModel WalkerMore MeshSpec MeshViews Surgery MeshLink MeshRun FlipBase FlipRun FlipSpec FlipCommon Flip14.
Local Open Scope nat_scope.

Section flip14ok.
  Context {V T : Type}.
  Implicit Types (m : mesh V T) (F G : N → tet T) (w u : walker) (L O K : gset N) (id : N).

  Lemma verts_first_idx (vs : arr4 N) e : e < 12 → NoDup (list4 vs) → q0 (verts_at vs e) = q0 vs → first_idx e = 0.
  Proof.
    destruct vs as [a b c d]. intros He Hnd%NoDup4. cbn in Hnd. case12 e He; cbn; intros; try done; destruct_and?; congruence.
  Qed.

  Lemma flip14_step m self v :
    mesh_ok m → valid m self → is_Some (im_get (m_verts m) v) → ¬ attached m v → id_room m 3 4 →
    ∃ m' ws, flip14_unchecked m self v = Some (m', ws) ∧ flip14_spec m self v m' ws ∧
      (w_first m self = tet_get m (w_tet self) ≫= (λ t, Some (q0 (t_vs t))) → mesh_ok m').
  Proof.
    intros Hmok Hself Hv Hatt [Hr1 Hr2].
    destruct (view_of m self Hself) as (L & F & Hmv).
    pose proof (ok_vmesh m L F Hmv Hmok) as Hvm. apply (mv_valid _ _ _ _ Hmv) in Hself.
    assert (∀ id, id ∈ L → v ∉ list4 (t_vs (F id))) as Hvn.
    { intros id Hid Hin. apply Hatt. destruct (first_of_tet F id v Hin) as (w & E1 & Hw & E2).
      exists w. split; [apply (mv_valid _ _ _ _ Hmv); split; [by rewrite E1|done]|].
      rewrite (mv_first _ _ _ _ Hmv) by (by rewrite E1). by rewrite E2. }
    destruct (flip14_run m L F self v Hvm Hself Hv (Hvn _ (proj1 Hself)) Hr1 Hr2) as (m' & ids & es & G & E & Hres).
    pose proof (flip14_facts m L F self v m' ids es G Hvm Hself Hvn Hres) as Hs. cbv zeta in Hs.
    eexists m', _. split; [exact E|]. clear E.
    destruct Hres as [(id1&id2&id3&->&N1&N2&N3&D12&D13&D23) (e0&e1&e2&e3&->&He) Hef Hst Hrl Hvr Hwe Henew Heold Hnpie Hnpit Hgf Htr Hctr Htm].
    cbn [nth] in *.
    pose proof Hself as [HidL Hse]. set (id0 := w_tet self) in *.
    set (O := L ∖ {[id0]}) in *.
    assert (L = O ∪ {[id0]}) as EL.
    { apply set_eq. intros x. unfold O. rewrite elem_of_union, elem_of_difference, elem_of_singleton.
      destruct (decide (x = id0)) as [->|]; tauto. }
    set (F' := ov _ G) in *.
    assert (id0 ≠ id1 ∧ id0 ≠ id2 ∧ id0 ≠ id3) as (D01 & D02 & D03) by (repeat split; intros E; congruence).
    assert (∀ x, x ∈ O → x ≠ id0 ∧ x ≠ id1 ∧ x ≠ id2 ∧ x ≠ id3) as HOne.
    { intros x Hx. unfold O in Hx. apply elem_of_difference in Hx as [Hx1 Hx2]. rewrite elem_of_singleton in Hx2.
      repeat split; intros E; congruence. }
    assert (∀ x, x ∈ O → F' x = G x) as HFO.
    { intros x Hx. destruct (HOne x Hx) as (?&?&?&?). unfold F', f14_tets.
      destruct (F id0) as [[] [] [] ? ?]. cbn. by rewrite !decide_False. }
    set (K' := list_to_set [id0; id1; id2; id3] : gset N) in *.
    assert (∀ id, id ∈ K' ↔ id = id0 ∨ id = id1 ∨ id = id2 ∨ id = id3) as HK'.
    { intros id. unfold K'. rewrite elem_of_list_to_set, !elem_of_cons, elem_of_nil. tauto. }
    assert (K' ∪ L = O ∪ K') as EL'.
    { apply set_eq. intros x. rewrite EL, !elem_of_union, HK', elem_of_singleton. tauto. }
    rewrite EL' in Hst.
    destruct (F id0) as [[p q r s] [o0 o1 o2 o3] [x0 x1 x2 x3 x4 x5] fl val] eqn:EF.
    assert (F' id0 = Tet (A4 v q r s) (A4 o0 (Walker id1 0) (Walker id2 4) (Walker id3 8))
             (A6 x0 e1 x2 e3 x4 e2) (lk4 fl (A4 (q0 (f_locked fl)) false false false)) val) as F0.
    { unfold F'. cbn. by rewrite decide_True. }
    assert (F' id1 = Tet (A4 p v r s) (A4 (Walker id0 1) o1 (Walker id2 9) (Walker id3 5))
             (A6 x0 e0 e2 x3 e3 x5) (lk4 fl (A4 false (q1 (f_locked fl)) false false)) val) as F1.
    { unfold F'. cbn. rewrite decide_False by done. by rewrite decide_True. }
    assert (F' id2 = Tet (A4 p q v s) (A4 (Walker id0 6) (Walker id1 10) o2 (Walker id3 2))
             (A6 e3 x1 e1 x3 x4 e0) (lk4 fl (A4 false false (q2 (f_locked fl)) false)) val) as F2.
    { unfold F'. cbn. rewrite !decide_False by done. by rewrite decide_True. }
    assert (F' id3 = Tet (A4 p q r v) (A4 (Walker id0 11) (Walker id1 7) (Walker id2 3) o3)
             (A6 e2 x1 x2 e0 e1 x5) (lk4 fl (A4 false false false (q3 (f_locked fl)))) val) as F3.
    { unfold F'. cbn. rewrite !decide_False by done. by rewrite decide_True. }
    clearbody F' K'.
    pose proof (proj1 Hst) as Hmv'.
    assert (NoDup [p; q; r; s]) as Hnd.
    { pose proof (vo_nodup _ _ (vm_vok _ _ _ Hvm) id0 HidL) as H. by rewrite EF in H. }
    assert (v ∉ [p; q; r; s]) as Hvpq.
    { pose proof (Hvn id0 HidL) as H. by rewrite EF in H. }
    pose proof Hnd as Hnd'. apply NoDup4 in Hnd' as (Q1&Q2&Q3&Q4&Q5&Q6).
    rewrite !not_elem_of_cons in Hvpq. destruct Hvpq as (V1&V2&V3&V4&_).
    assert (∀ id, id ∈ O → v ∉ list4 (t_vs (F id))) as HvO.
    { intros id Hid. apply Hvn. rewrite EL. inu. }
    assert (v_tet <$> im_get (m_verts m') v = Some self) as Hvref.
    { rewrite (vr_ref _ _ _ Hvr v). destruct Hv as [vt ->]. cbn.
      repeat case_decide; try done; congruence. }
    assert (id_room m 3 4) as Hroom by done.
    assert (im_get (m_edges m') e0 = Some (uedge_new (p, v))) as X0 by by apply (Henew 0).
    assert (im_get (m_edges m') e1 = Some (uedge_new (q, v))) as X1 by by apply (Henew 1).
    assert (im_get (m_edges m') e2 = Some (uedge_new (r, v))) as X2 by by apply (Henew 2).
    assert (im_get (m_edges m') e3 = Some (uedge_new (s, v))) as X3 by by apply (Henew 3).
    assert (∀ e, e ∈ [e0; e1; e2; e3] → ∃ x, x ∈ [p; q; r; s] ∧ im_get (m_edges m') e = Some (uedge_new (x, v))) as Hnew.
    { intros e Hin. rewrite !elem_of_cons, elem_of_nil in Hin.
      destruct Hin as [-> | [-> | [-> | [-> | []]]]]; [exists p|exists q|exists r|exists s];
        (split; [rewrite !elem_of_cons; tauto|done]). }
    assert (∀ i, i < 4 → valid m' (get4 (A4 (Walker id0 0) (Walker id1 1) (Walker id2 2) (Walker id3 3)) i)) as Hwsv.
    { intros i Hi. apply (mv_valid _ _ _ _ Hmv').
      case4 i Hi; (split; [cbn; apply elem_of_union_r, HK'; tauto|cbn; lia]). }
    split.
    { split.
      - exists p, q, r, s, id1, id2, id3. fold id0. split; [by rewrite (mv_in _ _ _ _ Hmv HidL), EF|].
        split; [apply NoDup4; done|]. split; [done|]. split.
        + intros id ->%elem_of_list_singleton. rewrite (mv_in _ _ _ _ Hmv HidL). eauto.
        + intros id vs Hin. rewrite !elem_of_cons, elem_of_nil in Hin.
          destruct Hin as [[= -> ->]|[[= -> ->]|[[= -> ->]|[[= -> ->]|[]]]]];
            (rewrite (mv_in _ _ _ _ Hmv') by (apply elem_of_union_r, HK'; tauto));
            rewrite ?F0, ?F1, ?F2, ?F3; done.
        + intros id ->%elem_of_list_singleton Hn. destruct Hn. cbn. rewrite elem_of_cons. by left.
        + intros id Hin Hn. cbn in Hin. rewrite !elem_of_cons, elem_of_nil in Hin. rewrite elem_of_cons in Hn.
          apply (mv_out _ _ _ _ Hmv). destruct Hin as [-> | [-> | [-> | [-> | []]]]]; try done. tauto.
        + intros id H1 H2. cbn in H2. rewrite !not_elem_of_cons in H2. destruct H2 as (H2a&H2b&H2c&H2d&_).
          rewrite (Hmv id), (Hmv' id). destruct (decide (id ∈ L)) as [Hin|Hout].
          * assert (id ∈ O) as HinO by (rewrite EL in Hin; apply elem_of_union in Hin as [?|?%elem_of_singleton]; done).
            rewrite decide_True by (by apply elem_of_union_l). cbn. rewrite HFO by done.
            destruct (rl_rest _ _ _ Hrl id) as (->&->&->&->). done.
          * rewrite decide_False; [done|]. intros [Hin|Hin%HK']%elem_of_union; [|tauto].
            apply Hout. rewrite EL. by apply elem_of_union_l.
        + intros e ue. destruct (decide (e ∈ [e0; e1; e2; e3])) as [Hin|Hout].
          * destruct (Hnew e Hin) as (x & Hx & ->). rewrite (Hef e Hin). split.
            -- intros [= <-]. right. split; [done|]. split; [done|]. exists (x, v). split; [|done].
               rewrite !elem_of_cons, elem_of_nil in Hx.
               destruct Hx as [-> | [-> | [-> | [-> | []]]]]; repeat constructor.
            -- intros [[H _]|(_ & H & _)]; done.
          * rewrite Heold by done. split; [|by intros [[? _]|(H1 & H2 & _)]].
            intros H. left. split; [done|]. apply not_elem_of_nil.
        + apply (vr_rest _ _ _ Hvr).
        + done.
        + done.
        + done.
      - intros i Hi.
        assert (w_tet (get4 (A4 (Walker id0 0) (Walker id1 1) (Walker id2 2) (Walker id3 3)) i) ∈ O ∪ K') as Hin.
        { case4 i Hi; cbn; apply elem_of_union_r, HK'; tauto. }
        rewrite (mv_tri _ _ _ _ Hmv'), (mv_fourth _ _ _ _ Hmv') by done. rewrite (mv_tri _ _ _ _ Hmv) by done.
        split; [|split; [|by apply Hwsv]]; f_equal; unfold vv; cbn [w_tet w_edge]; fold id0; rewrite ?EF;
          case4 i Hi; cbn [get4 q0 q1 q2 q3 w_tet w_edge]; rewrite ?F0, ?F1, ?F2, ?F3; reflexivity.
      - intros t. rewrite (locked_tri_view _ _ _ _ Hmv), (locked_tri_view _ _ _ _ Hmv').
        rewrite EL. rewrite (lock_surgery O {[id0]} K' F F').
        + split; [by intros [? _]|]. intros H. split; [done|]. intros (w & Hw & Hin & _).
          apply (av_other (O ∪ {[id0]}) F w); [rewrite <- EL; apply Hvm|split; [apply elem_of_union_r, Hw|apply Hw]|].
          apply elem_of_singleton in Hin. destruct Hw as [Hw%elem_of_singleton _]. congruence.
        + rewrite <- EL. apply Hvm.
        + done.
        + intros [id e] [Hu%HK' Hue] Hin. cbn [w_tet w_edge] in *. unfold lv. unfold av in Hin. rewrite rot_tet in Hin.
          cbn [w_tet w_edge] in *. pose proof (Nat.mod_upper_bound e 4 ltac:(lia)) as Hj. remember (e mod 4) as j eqn:Ej. clear Ej.
          assert (∀ i, i < 4 → w_tet (get4 (A4 o0 o1 o2 o3) i) ∉ K') as Hno.
          { intros i Hi Hin'. assert (get4 (A4 o0 o1 o2 o3) i = av F (Walker id0 i)) as E.
            { unfold av. cbn [w_tet w_edge]. rewrite EF. case4 i Hi; reflexivity. }
            rewrite E in Hin'.
            assert (vd L (Walker id0 i)) as Hvi by (split; [done|cbn; lia]).
            destruct (vo_adj _ _ (vm_vok _ _ _ Hvm) _ Hvi) as [[Hav _] _].
            pose proof (av_other _ _ _ (vm_vok _ _ _ Hvm) Hvi) as Hot. cbn [w_tet] in Hot.
            apply HK' in Hin'. destruct Hin' as [E1|[E1|[E1|E1]]]; congruence. }
          pose proof (Hno 0 ltac:(lia)) as M0. pose proof (Hno 1 ltac:(lia)) as M1.
          pose proof (Hno 2 ltac:(lia)) as M2. pose proof (Hno 3 ltac:(lia)) as M3. cbn [get4 q0 q1 q2 q3] in M0, M1, M2, M3.
          destruct Hu as [-> | [-> | [-> | -> ]]]; rewrite ?F0, ?F1, ?F2, ?F3 in Hin |- *;
            case4 j Hj; first [reflexivity|by destruct M0|by destruct M1|by destruct M2|by destruct M3].
      - exact Hvref.
      - intros nt ne [H1 H2]. clear -H1 H2 Hnpie Hnpit. split; lia.
      - apply (vr_npi _ _ _ Hvr). }
    intros Hfirst.
    assert (first_idx (w_edge self) = 0) as Hfi.
    { rewrite (mv_first _ _ _ _ Hmv), (mv_in _ _ _ _ Hmv HidL) in Hfirst by done. cbn in Hfirst.
      injection Hfirst as Hfirst. apply (verts_first_idx (t_vs (F id0))); [done|by rewrite EF|].
      unfold id0. exact Hfirst. }
    apply (vmesh_ok m' (O ∪ K') F').
    rewrite EL in Hvm.
    assert (∀ x, x ∈ [p; q; r; s] → x = GHOST ∨ is_Some (im_get (m_verts m) x)) as Hexp.
    { intros x Hx. destruct (first_of_tet F id0 x) as (w & W1 & W2 & W3); [by rewrite EF|].
      rewrite <- W3. apply (vm_ex _ _ _ Hvm). split; [rewrite W1; rewrite <- EL; exact HidL|done]. }
    assert (eok (O ∪ {[id0]}) F (m_epair m)) as Heo by apply Hvm.
    assert (vok (O ∪ {[id0]}) F) as Hok by apply Hvm.
    assert (∀ e p', m_epair m e = Some p' → e ∉ [e0; e1; e2; e3]) as Hold.
    { intros e p' H Hin. unfold m_epair in H. by rewrite (Hef e Hin) in H. }
    assert (∀ e, e ∉ [e0; e1; e2; e3] → m_epair m' e = m_epair m e) as Hep.
    { intros e Hin. unfold m_epair. by rewrite Heold. }
    assert (∀ e p', m_epair m e = Some p' → m_epair m' e = Some p') as Hep'.
    { intros e p' H. rewrite Hep; [done|]. by eapply Hold. }
    assert (∀ x, m_epair m' x = ue_vs <$> im_get (m_edges m') x) as Hepd by done.
    apply (vmesh_replace m m' O {[id0]} K' F F' [id0] [id0; id1; id2; id3]
      (f14_refs (A4 p q r s) v self id1 id2 id3) Hvm Hs Hst Hwe).
    - (* edges *)
      apply eok_intro.
      + intros id [Hid|Hid%HK']%elem_of_union.
        * rewrite HFO by done. destruct (rl_rest _ _ _ Hrl id) as (->&->&_).
          destruct (eok_slots _ _ _ id Heo) as (S0&S1&S2&S3&S4&S5); [by apply elem_of_union_l|].
          repeat split; by apply Hep'.
        * destruct (eok_slots _ _ _ id0 Heo) as (S0&S1&S2&S3&S4&S5); [by apply elem_of_union_r, elem_of_singleton|].
          rewrite EF in S0, S1, S2, S3, S4, S5. cbn in S0, S1, S2, S3, S4, S5.
          destruct Hid as [-> | [-> | [-> | -> ]]]; rewrite ?F0, ?F1, ?F2, ?F3; unfold edge_slots;
            cbn [t_vs t_edges q0 q1 q2 q3 s0 s1 s2 s3 s4 s5]; repeat split;
            first [by apply Hep' | rewrite Hepd; rewrite ?X0, ?X1, ?X2, ?X3; cbn; f_equal; done
              | rewrite Hepd; rewrite ?X0, ?X1, ?X2, ?X3; cbn; f_equal; apply sorted_2_comm].
      + intros e e' pr H1 H2.
        assert (∀ e x, e ∉ [e0; e1; e2; e3] → m_epair m' e = Some (sorted_2 (x, v)) → False) as Hx.
        { intros e'' x Hn He'. rewrite Hep in He' by done. destruct (sorted_2 (x, v)) as [a b] eqn:Es.
          destruct (eok_used _ _ _ _ _ _ Hok Heo He') as (id & Hid & Ha & Hb & _).
          rewrite <- EL in Hid. pose proof (Hvn id Hid) as Hvi.
          unfold sorted_2 in Es. destruct (N.ltb v x); injection Es as <- <-; done. }
        destruct (decide (e ∈ [e0; e1; e2; e3])) as [I1|I1], (decide (e' ∈ [e0; e1; e2; e3])) as [I2|I2].
        * assert (∀ x y, x ≠ v → y ≠ v → sorted_2 (x, v) = sorted_2 (y, v) → x = y) as Hsi.
          { clear. intros x y Hx Hy. unfold sorted_2. destruct (N.ltb_spec v x), (N.ltb_spec v y); intros [=]; congruence. }
          assert (NoDup [e0; e1; e2; e3]) as He' by done. apply NoDup4 in He' as (?&?&?&?&?&?).
          rewrite !elem_of_cons, elem_of_nil in I1, I2. rewrite Hepd in H1, H2.
          destruct I1 as [-> | [-> | [-> | [-> | []]]]], I2 as [-> | [-> | [-> | [-> | []]]]]; try done;
            rewrite ?X0, ?X1, ?X2, ?X3 in H1; rewrite ?X0, ?X1, ?X2, ?X3 in H2; cbn in H1, H2; exfalso;
            rewrite <- H2 in H1; apply (inj Some) in H1; apply Hsi in H1; congruence.
        * destruct (Hnew e I1) as (x & Hx' & Ex). rewrite Hepd, Ex in H1. cbn in H1.
          exfalso. apply (Hx e' x I2). rewrite H2, <- H1. done.
        * destruct (Hnew e' I2) as (x & Hx' & Ex). rewrite Hepd, Ex in H2. cbn in H2.
          exfalso. apply (Hx e x I1). rewrite H1, <- H2. done.
        * rewrite Hep in H1, H2 by done. by apply (eo_inj _ _ _ Heo e e' pr).
      + intros e a b He'. destruct (decide (e ∈ [e0; e1; e2; e3])) as [I1|I1].
        * destruct (Hnew e I1) as (x & Hx & Ex). rewrite Hepd, Ex in He'. cbn in He'. apply (inj Some) in He'.
          assert (∃ id, id ∈ K' ∧ x ∈ list4 (t_vs (F' id)) ∧ v ∈ list4 (t_vs (F' id)) ∧ x ≠ v) as (id & K1 & K2 & K3 & K4).
          { rewrite !elem_of_cons, elem_of_nil in Hx. destruct (decide (x = p)) as [->|Hxp].
            - exists id1. rewrite HK', !elem_list4, F1. cbn. split; [tauto|]. split; [tauto|]. split; [tauto|]. done.
            - exists id0. rewrite HK', !elem_list4, F0. cbn. split; [tauto|]. split; [tauto|]. split; [tauto|]. intros ->. naive_solver. }
          exists id. split; [by apply elem_of_union_r|]. unfold sorted_2 in He'.
          destruct (N.ltb v x); injection He' as <- <-; done.
        * rewrite Hep in He' by done. destruct (eok_used _ _ _ _ _ _ Hok Heo He') as (id & Hid & Ha & Hb & Hab).
          apply elem_of_union in Hid as [Hid|Hid].
          -- exists id. rewrite (sg_vs _ _ _ _ _ Hs) by done. split; [by apply elem_of_union_l|done].
          -- apply elem_of_singleton in Hid as ->. rewrite EF, elem_list4 in Ha, Hb. cbn in Ha, Hb.
             assert (∃ id, id ∈ K' ∧ a ∈ list4 (t_vs (F' id)) ∧ b ∈ list4 (t_vs (F' id))) as (id & K1 & K2 & K3).
             { destruct Ha as [Ha|Ha]; [destruct Hb as [Hb|[Hb|Hb]]|destruct Hb as [Hb|Hb]]; [congruence| | | |].
               - exists id2. rewrite HK', !elem_list4, F2. cbn. clear -Ha Hb. tauto.
               - exists id1. rewrite HK', !elem_list4, F1. cbn. clear -Ha Hb. tauto.
               - destruct Ha as [Ha|Ha]; [exists id2; rewrite HK', !elem_list4, F2|exists id1; rewrite HK', !elem_list4, F1];
                   cbn; clear -Ha Hb; tauto.
               - exists id0. rewrite HK', !elem_list4, F0. cbn. clear -Ha Hb. tauto. }
             exists id. split; [by apply elem_of_union_r|done].
      + intros e a b He'. destruct (decide (e ∈ [e0; e1; e2; e3])) as [I1|I1].
        * destruct (Hnew e I1) as (x & Hx & Ex). rewrite Hepd, Ex in He'. cbn in He'. apply (inj Some) in He'.
          apply (sorted_2_lt x v); [|done]. rewrite !elem_of_cons, elem_of_nil in Hx. intros ->. naive_solver.
        * rewrite Hep in He' by done. by apply (eo_sorted _ _ _ Heo e).
    - done.
    - intros x. cbn. rewrite !elem_of_cons, elem_of_nil. split.
      + intros [(id & ->%elem_of_singleton & Hin)|(id & Hin%HK' & Hin2)].
        * rewrite EF, elem_list4 in Hin. cbn in Hin. clear -Hin. tauto.
        * destruct Hin as [-> | [-> | [-> | -> ]]]; rewrite ?F0, ?F1, ?F2, ?F3, elem_list4 in Hin2; cbn in Hin2; clear -Hin2; tauto.
      + intros [-> |H]; [right; exists id0; rewrite HK', elem_list4, F0; cbn; clear; tauto|].
        left. exists id0. rewrite elem_of_singleton, EF, elem_list4. cbn. clear -H. tauto.
    - intros x w Hx _. assert (vd K' (Walker id2 3) ∧ vd K' (Walker id3 2) ∧ vd K' (Walker id0 1) ∧ vd K' (Walker id1 0)) as (Y1&Y2&Y3&Y4).
      { repeat split; cbn [w_tet w_edge]; first [apply HK'; clear; tauto|clear; lia]. }
      cbn [f14_refs last_ref q0 q1 q2 q3]. fold id0.
      cbn in Hx. rewrite !elem_of_cons, elem_of_nil in Hx.
      assert (vd K' self) as Y5 by (split; [apply HK'; by left|done]).
      assert (q0 (vv F' self) = v) as Y6.
      { unfold vv. change (w_tet self) with id0. rewrite F0. unfold verts_at. cbn [t_vs q0]. by rewrite Hfi. }
      destruct Hx as [-> | [-> | [-> | [-> | [-> | []]]]]]; repeat case_decide; try congruence;
        (split; [done|]); first [exact Y6|unfold vv; cbn [w_tet w_edge]; rewrite ?F0, ?F1, ?F2, ?F3; reflexivity].
    - intros x (id & Hid%HK' & Hin). destruct (decide (x = v)) as [->|Hxv]; [by right|]. apply Hexp.
      rewrite !elem_of_cons, elem_of_nil.
      destruct Hid as [-> | [-> | [-> | -> ]]]; rewrite ?F0, ?F1, ?F2, ?F3, elem_list4 in Hin; cbn in Hin; clear -Hin Hxv; tauto.
    - intros id. by rewrite elem_of_list_singleton, elem_of_singleton.
    - intros id. rewrite HK', !elem_of_cons, elem_of_nil. clear. tauto.
    - done.
    - done.
  Qed.
End flip14ok.
