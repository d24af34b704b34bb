(** The 2-to-3 flip keeps the mesh consistent. *)
From stdpp Require Import base numbers list gmap option relations.
From Coq Require Import NArith ZArith ZifyN ZifyNat ZifyBool Lia.
From Verif Require Import IdMapModel IdMapSpec IdMapProofs IdMapMore WalkerModel WalkerSpec WalkerProofs SortProofs
  MeshModel WalkerMore MeshSpec MeshViews Surgery MeshLink MeshRun FlipBase FlipRun FlipSpec FlipCommon Flip23 Flip23Surg.
Local Open Scope nat_scope.

Section flip23ok.
  Context {V T : Type}.
  Implicit Types (m : mesh V T) (F G : N → tet T) (w u : walker) (L O K : gset N) (id : N).

  (** The triangle (a, b, c) of [self] with apexes d (on its side) and e is replaced by the
      edge d-e. *)
  (** The triangles between the two replaced tets. *)
  Lemma gone23 L F self t v0 v1 v2 v3 v4 : vok L F → vd L self →
    vv F self = A4 v1 v0 v2 v3 → vv F (av F self) = A4 v0 v1 v2 v4 → v3 ≠ v4 →
    (∃ w, vd L w ∧ tri3 (vv F w) = t) →
    gone_tri {[w_tet self; w_tet (av F self)]} F t ↔ same_corners t (v1, v0, v2).
  Proof.
    intros Hok Hs Es Eo Hne (w0 & Hw0 & Et). destruct (vo_adj _ _ Hok self Hs) as [Ho _].
    pose proof (vv_distinct L F self Hok Hs) as (D1&D2&D3&D4&D5&D6). rewrite Es in D1, D2, D3, D4, D5, D6. cbn in D1, D2, D3, D4, D5, D6.
    pose proof (vv_distinct L F (av F self) Hok Ho) as (X1&X2&X3&X4&X5&X6). rewrite Eo in X1, X2, X3, X4, X5, X6. cbn in X1, X2, X3, X4, X5, X6.
    assert (∀ x, x ∈ list4 (t_vs (F (w_tet self))) ↔ x = v0 ∨ x = v1 ∨ x = v2 ∨ x = v3) as HV0.
    { intros x. rewrite <- (vv_elem F self) by apply Hs. rewrite Es, elem_list4. cbn. tauto. }
    assert (∀ x, x ∈ list4 (t_vs (F (w_tet (av F self)))) ↔ x = v0 ∨ x = v1 ∨ x = v2 ∨ x = v4) as HV1.
    { intros x. rewrite <- (vv_elem F (av F self)) by apply Ho. rewrite Eo, elem_list4. cbn. tauto. }
    split.
    - intros (w & [Hw He] & Hin & <-). rewrite elem_of_union, !elem_of_singleton in Hw, Hin.
      assert (vd L w) as Hwv by (split; [destruct Hw as [-> | -> ]; [apply Hs|apply Ho]|done]).
      pose proof (av_other L F w Hok Hwv) as Hot.
      destruct (vo_adj _ _ Hok w Hwv) as [Ha (T1 & T2 & T3)].
      assert (∀ x, x ∈ [q0 (vv F w); q1 (vv F w); q2 (vv F w)] → x = v0 ∨ x = v1 ∨ x = v2) as Hsub.
      { intros x Hx.
        assert (x ∈ list4 (t_vs (F (w_tet w)))) as M1.
        { rewrite <- (vv_elem F w) by done. rewrite elem_list4. rewrite !elem_of_cons, elem_of_nil in Hx. clear -Hx. tauto. }
        assert (x ∈ list4 (t_vs (F (w_tet (av F w))))) as M2.
        { rewrite <- (vv_elem F (av F w)) by apply Ha. rewrite elem_list4, T1, T2, T3.
          rewrite !elem_of_cons, elem_of_nil in Hx. clear -Hx. tauto. }
        destruct Hw as [Hw|Hw], Hin as [Hin|Hin]; rewrite Hw in M1, Hot; rewrite Hin in M2, Hot; try done;
          rewrite ?HV0, ?HV1 in M1; rewrite ?HV0, ?HV1 in M2; clear -M1 M2 Hne; naive_solver. }
      pose proof (vv_distinct L F w Hok Hwv) as (Y1&Y2&_&Y3&_).
      unfold tri3. destruct (vv F w) as [x y z q]. cbn in *.
      pose proof (Hsub x ltac:(repeat constructor)) as Sx. pose proof (Hsub y ltac:(repeat constructor)) as Sy.
      pose proof (Hsub z ltac:(repeat constructor)) as Sz. clear -Sx Sy Sz Y1 Y2 Y3.
      intros k. cbn. rewrite !elem_of_cons, elem_of_nil.
      destruct Sx as [-> | [-> | -> ]], Sy as [-> | [-> | -> ]], Sz as [-> | [-> | -> ]]; try done; tauto.
    - intros Hc. pose proof (vv_distinct L F w0 Hok Hw0) as (Y1&Y2&_&Y3&_). unfold tri3 in Et.
      destruct (vv F w0) as [x y z q]. cbn in *. subst t. apply corners_perm in Hc; [|done..].
      assert (∀ w, w_edge w < 12 → w_tet w = w_tet self → w_tet (av F w) = w_tet (av F self) → tri3 (vv F w) = (x, y, z) →
        gone_tri {[w_tet self; w_tet (av F self)]} F (x, y, z)) as G0.
      { intros w He E1 E2 E3. exists w. rewrite !elem_of_union, !elem_of_singleton. split; [split|split]; [|done|tauto|done].
        rewrite elem_of_union, !elem_of_singleton. tauto. }
      assert (∀ w, w_edge w < 12 → w_tet w = w_tet (av F self) → w_tet (av F w) = w_tet self → tri3 (vv F w) = (x, y, z) →
        gone_tri {[w_tet self; w_tet (av F self)]} F (x, y, z)) as G1.
      { intros w He E1 E2 E3. exists w. rewrite !elem_of_union, !elem_of_singleton. split; [split|split]; [|done|tauto|done].
        rewrite elem_of_union, !elem_of_singleton. tauto. }
      assert (w_tet (av F (av F self)) = w_tet self) as Eb by (by rewrite (av_av L F self)).
      destruct Hc as [Hc|[Hc|[Hc|[Hc|[Hc|Hc]]]]]; rewrite Hc in G0, G1 |- *.
      + apply (G0 self); [apply Hs|done|done|by rewrite Es].
      + apply (G0 (to_nfe self)); [apply to_nfe_ok|done|by rewrite av_tet_nfe by apply Hs|by rewrite vv_nfe, Es by apply Hs].
      + apply (G0 (to_pfe self)); [apply to_pfe_ok|done|by rewrite av_tet_pfe by apply Hs|by rewrite vv_pfe, Es by apply Hs].
      + apply (G1 (av F self)); [apply Ho|done|done|by rewrite Eo].
      + apply (G1 (to_nfe (av F self))); [apply to_nfe_ok|done|by rewrite av_tet_nfe by apply Ho|by rewrite vv_nfe, Eo by apply Ho].
      + apply (G1 (to_pfe (av F self))); [apply to_pfe_ok|done|by rewrite av_tet_pfe by apply Ho|by rewrite vv_pfe, Eo by apply Ho].
  Qed.

  Lemma flip23_step m self other a b c d e :
    mesh_ok m → valid m self → w_verts m self = Some (A4 a b c d) → to_adj m self = Some other →
    w_fourth m other = Some e → d ≠ e → ¬ joined m d e → id_room m 1 1 →
    ∃ m' ws id2, flip23_unchecked m self = Some (m', ws) ∧ flip23_spec m self m' ws a b c d e other id2 ∧ mesh_ok m'.
  Proof.
    intros Hmok Hself Evs Eadj E4 Hde Hnj [Hr1 Hr2].
    destruct (view_of m self Hself) as (L & F & Hmv).
    pose proof (ok_vmesh m L F Hmv Hmok) as Hvm. apply (mv_valid _ _ _ _ Hmv) in Hself.
    pose proof (vm_vok _ _ _ Hvm) as Hok.
    rewrite (mv_adj _ _ _ _ Hmv Hself) in Eadj. injection Eadj as <-.
    pose proof (f23_verts L F self Hok Hself) as (Hoth & Ev & Hnd & Hn4).
    rewrite (mv_verts _ _ _ _ Hmv (proj1 Hself)) in Evs. apply (inj Some) in Evs.
    rewrite (mv_fourth _ _ _ _ Hmv (proj1 Hoth)) in E4. apply (inj Some) in E4.
    rewrite Evs in Hnd, Hn4. rewrite Evs, E4 in Ev. rewrite E4 in Hn4. cbn [q0 q1 q2 q3] in *.
    assert (∀ id, id ∈ L → d ∈ list4 (t_vs (F id)) → e ∈ list4 (t_vs (F id)) → False) as Hnj'.
    { intros id Hid H1 H2. apply Hnj. destruct (pair_of_tet F id d e H1 H2 Hde) as (w & W1 & W2 & W3 & W4).
      exists w. split; [apply (mv_valid _ _ _ _ Hmv); split; [by rewrite W1|done]|].
      rewrite (mv_pair _ _ _ _ Hmv) by (by rewrite W1). by rewrite W3, W4. }
    destruct (flip23_run m L F self Hvm Hself) as (m' & id2 & ed & G & E & Hres); [rewrite Evs, E4; done|done|done|].
    pose proof (flip23_shape m L F self m' id2 ed G Hvm Hself) as Hsh.
    rewrite Evs, E4 in Hsh. specialize (Hsh Hde Hres). cbn [q0 q1 q2 q3] in Hsh.
    pose proof (r23_rl _ _ _ _ _ _ _ _ Hres) as Hrl.
    set (O := L ∖ _) in Hsh.
    assert (∀ id, id ∈ O → d ∈ list4 (t_vs (F id)) → e ∈ list4 (t_vs (F id)) → False) as HnjO.
    { intros id Hid. apply Hnj'. unfold O in Hid. by apply elem_of_difference in Hid as [? _]. }
    pose proof (f23_surgery L F self id2 ed G O _ _ _ _ _ _ Hok Hself Hrl Hsh HnjO) as Hs.
    exists m'. eexists _, id2. split; [exact E|]. clear E.
    destruct Hres as [N2 Hef Hst _ Hvr Hwe Henew Heold Hnpie Hnpit Hgf Htr Hctr Htm].
    set (F' := ov _ G) in *.
    destruct Hsh as [Hat Hab Es Eo F0 F1 F2 HFO EL HD N2' (D01&D02&D12) (Q01&Q02&Q03&Q12&Q13&Q23&Q04&Q14&Q24&Q34) Hatt Habt HopO].
    clearbody F'.
    pose proof (λ i Hi, proj1 (Hat i Hi)) as HatO. pose proof (λ i Hi, proj1 (Hab i Hi)) as HabO. clear Hat Hab.
    assert (∀ i, i < 3 → vv F' (f23_at F self i) = vv F' (f23_at F self i)) as _ by done.
    unfold f23_tet in F0, F1, F2. unfold f23_refs in Hvr. rewrite Evs, E4 in Hvr. rewrite Evs, E4 in Henew. cbn [q0 q1 q2 q3] in Hvr, Henew.
    set (other := av F self) in *. set (id0 := w_tet self) in *. set (id1 := w_tet other) in *.
    set (K := {[id0; id1]} : gset N) in *. set (K' := list_to_set [id0; id1; id2] : gset N) in *.
    assert (∀ id, id ∈ K ↔ id = id0 ∨ id = id1) as HK.
    { intros id. unfold K. by rewrite elem_of_union, !elem_of_singleton. }
    assert (∀ id, id ∈ K' ↔ id = id0 ∨ id = id1 ∨ id = id2) as HK'.
    { intros id. unfold K'. rewrite elem_of_list_to_set, !elem_of_cons, elem_of_nil. tauto. }
    assert (∀ t, gone_tri K F t → ∃ w, vd L w ∧ tri3 (vv F w) = t) as Hgex.
    { intros t (w & [Hw1 Hw2] & _ & Ht). exists w. split; [|done]. split; [|done]. rewrite EL. by apply elem_of_union_r. }
    pose proof (λ t, gone23 L F self t b a c d e Hok Hself Evs Ev Hde) as Hgone. fold other id0 id1 K in Hgone.
    clearbody K'.
    assert (∀ x, x ∈ list4 (t_vs (F id0)) ↔ x = b ∨ x = a ∨ x = c ∨ x = d) as HV0.
    { intros x. unfold id0. rewrite <- (vv_elem F self) by apply Hself. rewrite Evs, elem_list4. cbn. clear. tauto. }
    assert (∀ x, x ∈ list4 (t_vs (F id1)) ↔ x = b ∨ x = a ∨ x = c ∨ x = e) as HV1.
    { intros x. unfold id1. rewrite <- (vv_elem F other) by apply Hoth. rewrite Ev, elem_list4. cbn. clear. tauto. }
    clearbody K.
    assert (∀ x, x ∈ O → x ≠ id0 ∧ x ≠ id1 ∧ x ≠ id2) as HOne.
    { intros x Hx. assert (x ∉ K) as Hxk by (intros H; by apply (HD x)). rewrite HK in Hxk.
      split; [tauto|]. split; [tauto|]. congruence. }
    assert ({[id2]} ∪ L = O ∪ K') as EL'.
    { apply set_eq. intros x. rewrite EL, !elem_of_union, HK', HK, elem_of_singleton. clear. tauto. }
    rewrite EL' in Hst. clearbody O. pose proof (proj1 Hst) as Hmv'.
    assert (id0 ∈ L ∧ id1 ∈ L) as [HidL0 HidL1] by (split; [apply Hself|apply Hoth]).
    assert (id0 ∈ O ∪ K' ∧ id1 ∈ O ∪ K' ∧ id2 ∈ O ∪ K') as (I0 & I1 & I2).
    { split; [|split]; apply elem_of_union_r, HK'; clear; tauto. }
    split.
    { split; fold id0 id1; cbn [fst snd].
      - rewrite (mv_verts _ _ _ _ Hmv) by done. by rewrite Evs.
      - split; [by apply (mv_adj _ _ _ _ Hmv)|]. rewrite (mv_verts _ _ _ _ Hmv) by done. by rewrite Ev.
      - apply NoDup_cons. split; [rewrite !elem_of_cons, elem_of_nil; clear -D01 D02; tauto|].
        apply NoDup_cons. split; [rewrite !elem_of_cons, elem_of_nil; clear -D12; tauto|]. apply NoDup_singleton.
      - split.
        + intros id. rewrite !elem_of_cons, elem_of_nil. intros [-> | [-> | []]]; rewrite (mv_in _ _ _ _ Hmv) by done; eauto.
        + intros id vs Hin. rewrite !elem_of_cons, elem_of_nil in Hin.
          destruct Hin as [[= -> ->]|[[= -> ->]|[[= -> ->]|[]]]];
            rewrite (mv_in _ _ _ _ Hmv') by done; rewrite ?F0, ?F1, ?F2; done.
        + intros id Hin Hn. destruct Hn. cbn. rewrite !elem_of_cons in Hin |- *. clear -Hin. destruct Hin as [-> | [-> | [] % elem_of_nil]]; [by left|by right; left].
        + intros id Hin Hn. cbn in Hin. rewrite !not_elem_of_cons in Hn; rewrite !elem_of_cons, elem_of_nil in Hin.
          apply (mv_out _ _ _ _ Hmv). destruct Hin as [-> | [-> | [-> | []]]]; try done; clear -Hn; tauto.
        + intros id H1 H2. cbn in H2. rewrite !not_elem_of_cons in H2. destruct H2 as (H2a&H2b&H2c&_).
          rewrite (Hmv id), (Hmv' id). destruct (decide (id ∈ L)) as [Hin|Hout].
          * assert (id ∈ O) as HinO.
            { rewrite EL in Hin. apply elem_of_union in Hin as [?|?%HK]; [done|]. clear -H H2a H2b. tauto. }
            rewrite decide_True by (by apply elem_of_union_l). cbn. rewrite HFO by done.
            destruct (rl_rest _ _ _ Hrl id) as (->&->&->&->). done.
          * rewrite decide_False; [done|]. intros [Hin|Hin%HK']%elem_of_union; [|clear -Hin H2a H2b H2c; tauto].
            apply Hout. rewrite EL. by apply elem_of_union_l.
        + intros e' ue. destruct (decide (e' = ed)) as [->|Hout].
          * rewrite Henew, Hef. split.
            -- intros [= <-]. right. split; [done|]. split; [done|]. exists (d, e). split; [|done]. repeat constructor.
            -- intros [[H _]|(_ & H & _)]; done.
          * rewrite Heold by done. split; [|by intros [[? _]|(H1 & H2 & _)]].
            intros H. left. split; [done|]. apply not_elem_of_nil.
        + apply (vr_rest _ _ _ Hvr).
        + done.
        + done.
        + done.
      - done.
      - repeat split; cbn [w_tet w_edge]; try (clear; lia); rewrite (mv_in _ _ _ _ Hmv') by done; eauto.
      - rewrite !(mv_verts _ _ _ _ Hmv') by done. unfold vv. cbn [w_tet w_edge]. rewrite F0, F1, F2. done.
      - intros t. rewrite (locked_tri_view _ _ _ _ Hmv'), (locked_tri_view _ _ _ _ Hmv).
        assert (vok (O ∪ K) F) as Hok' by (by rewrite <- EL).
        rewrite (lock_surgery O K K' F F' Hok' Hs). 
        + rewrite <- EL. split.
          * intros [H1 H2]. split; [done|]. intros Hc. apply H2. apply Hgone; [|done].
            destruct H1 as (w & ? & ? & _). by exists w.
          * intros [H1 H2]. split; [done|]. intros Hc. apply H2. apply Hgone; [|done]. by apply Hgex.
        + intros [id j] [Hu%HK' Hue] Hin. cbn [w_tet w_edge] in *. unfold lv. unfold av in Hin. rewrite rot_tet in Hin.
          cbn [w_tet w_edge] in *. pose proof (Nat.mod_upper_bound j 4 ltac:(clear; lia)) as Hj. remember (j mod 4) as j' eqn:Ej. clear Ej.
          assert (∀ x, x ∈ O → x ∉ K') as HnO.
          { intros x Hx Hx'%HK'. destruct (HOne x Hx) as (?&?&?). clear -Hx' H H0 H1. tauto. }
          assert (∀ i, i < 3 → w_tet (f23_at F self i) ∉ K') as M1 by (intros i Hi; apply HnO, HatO, Hi).
          assert (∀ i, i < 3 → w_tet (f23_ab F self i) ∉ K') as M2 by (intros i Hi; apply HnO, HabO, Hi).
          destruct Hu as [-> | [-> | -> ]]; rewrite ?F0, ?F1, ?F2 in Hin |- *;
            case4 j' Hj; cbn in Hin |- *; try reflexivity; exfalso; revert Hin;
            first [apply (M1 0); clear; lia|apply (M1 1); clear; lia|apply (M1 2); clear; lia
                  |apply (M2 0); clear; lia|apply (M2 1); clear; lia|apply (M2 2); clear; lia].
      - intros nt ne [H1 H2]. clear -H1 H2 Hnpie Hnpit. split; lia.
      - apply (vr_npi _ _ _ Hvr). }
    apply (vmesh_ok m' (O ∪ K') F').
    rewrite EL in Hvm.
    assert (eok (O ∪ K) F (m_epair m)) as Heo by apply Hvm.
    assert (vok (O ∪ K) F) as Hok' by apply Hvm.
    assert (∀ e', e' ≠ ed → m_epair m' e' = m_epair m e') as Hep.
    { intros e' Hin. unfold m_epair. by rewrite Heold. }
    assert (m_epair m' ed = Some (sorted_2 (d, e))) as Hep1.
    { unfold m_epair. by rewrite Henew. }
    assert (∀ e' p', m_epair m e' = Some p' → m_epair m' e' = Some p') as Hep'.
    { intros e' p' H. rewrite Hep; [done|]. intros ->. unfold m_epair in H. by rewrite Hef in H. }
    assert (∀ w x y, w_tet w ∈ O → w_edge w < 12 → q0 (vv F w) = x → q1 (vv F w) = y →
      m_epair m' (uv F w) = Some (sorted_2 (x, y))) as Huv.
    { intros w x y Hw He <- <-. apply Hep', (uv_slots _ _ _ _ Heo);
      (split; [by apply elem_of_union_l|done]). }
    assert (∀ a, vd O a → m_epair m' (uv F a) = Some (sorted_2 (q0 (vv F a), q1 (vv F a))) ∧
      m_epair m' (uv F (to_nfe a)) = Some (sorted_2 (q1 (vv F a), q2 (vv F a))) ∧
      m_epair m' (uv F (to_pfe a)) = Some (sorted_2 (q2 (vv F a), q0 (vv F a)))) as Huv3.
    { intros x [Hx1 Hx2]. split; [by apply Huv|].
      split; (apply Huv; [done|first [apply to_nfe_ok|apply to_pfe_ok]|by rewrite ?vv_nfe, ?vv_pfe by done..]). }
    apply (vmesh_replace m m' O K K' F F' [id0; id1] [id0; id1; id2]
      [(b, Walker id0 3); (a, Walker id1 3); (c, Walker id2 3); (d, Walker id0 1); (e, Walker id0 0)] Hvm Hs Hst Hwe).
    - (* edges *)
      apply eok_intro.
      + intros id [Hid|Hid%HK']%elem_of_union.
        * rewrite HFO by done. destruct (rl_rest _ _ _ Hrl id) as (->&->&_).
          destruct (eok_slots _ _ _ id Heo) as (S0&S1&S2&S3&S4&S5); [by apply elem_of_union_l|].
          repeat split; by apply Hep'.
        * assert (∀ i, i < 3 → edge_slots (A4 (nth i [b; a; c] 0%N) (nth i [a; c; b] 0%N) d e)
            (A6 ed (uv F (f23_at F self i)) (uv F (to_pfe (f23_at F self i))) (uv F (to_pfe (f23_ab F self i)))
               (uv F (to_nfe (f23_ab F self i))) (uv F (to_nfe (f23_at F self i)))) (m_epair m')) as Hsl.
          { intros i Hi. destruct (Huv3 _ (HatO i Hi)) as (U1 & U2 & U3). destruct (Huv3 _ (HabO i Hi)) as (W1 & W2 & W3).
            pose proof (Hatt i Hi) as Ha. pose proof (Habt i Hi) as Hb. 
            unfold tri3 in Ha, Hb. apply pair_equal_spec in Ha as [[Ha1 Ha2]%pair_equal_spec Ha3].
            apply pair_equal_spec in Hb as [[Hb1 Hb2]%pair_equal_spec Hb3].
            rewrite Ha1, Ha2 in U1. rewrite Ha2, Ha3 in U2. rewrite Ha3, Ha1 in U3.
            rewrite Hb2, Hb3 in W2. rewrite Hb3, Hb1 in W3.
            unfold edge_slots. cbn [s0 s1 s2 s3 s4 s5 q0 q1 q2 q3].
            split; [done|]. split; [by rewrite sorted_2_comm|]. split; [by rewrite sorted_2_comm|].
            split; [by rewrite sorted_2_comm|]. split; [done|]. done. }
          destruct Hid as [-> | [-> | -> ]]; rewrite ?F0, ?F1, ?F2; [apply (Hsl 0)|apply (Hsl 1)|apply (Hsl 2)]; clear; lia.
      + assert (∀ e', m_epair m e' ≠ Some (sorted_2 (d, e))) as Hx.
        { intros e' He'. destruct (sorted_2 (d, e)) as [x y] eqn:Exy.
          destruct (eok_used _ _ _ _ _ _ Hok' Heo He') as (id & Hid & Hx & Hy & _).
          rewrite <- EL in Hid. apply (Hnj' id Hid); unfold sorted_2 in Exy; destruct (N.ltb e d); injection Exy as <- <-; done. }
        intros e1 e2 pr H1 H2.
        destruct (decide (e1 = ed)) as [-> | Ne1], (decide (e2 = ed)) as [-> | Ne2]; [done| | |].
        * exfalso. apply (Hx e2). rewrite <- Hep by done. congruence.
        * exfalso. apply (Hx e1). rewrite <- Hep by done. congruence.
        * rewrite Hep in H1, H2 by done. by apply (eo_inj _ _ _ Heo e1 e2 pr).
      + intros e' x y He'. destruct (decide (e' = ed)) as [-> | Ne1].
        * rewrite Hep1 in He'. exists id0. split; [done|]. rewrite !elem_list4, F0. cbn [t_vs q0 q1 q2 q3].
          unfold sorted_2 in He'. destruct (N.ltb e d); injection He' as <- <-; clear -Hde; (split; [tauto|]; split; [tauto|]; congruence).
        * rewrite Hep in He' by done. destruct (eok_used _ _ _ _ _ _ Hok' Heo He') as (id & Hid & Ha & Hb & Hab).
          apply elem_of_union in Hid as [Hid|Hid].
          -- exists id. rewrite (sg_vs _ _ _ _ _ Hs) by done. split; [by apply elem_of_union_l|done].
          -- assert (∀ p q, (p = a ∨ p = b ∨ p = c) → (q = a ∨ q = b ∨ q = c ∨ q = d ∨ q = e) →
               ∃ id, id ∈ K' ∧ p ∈ list4 (t_vs (F' id)) ∧ q ∈ list4 (t_vs (F' id))) as Hpair.
             { intros p q Hp Hq.
               assert (∃ i, i < 3 ∧ (p = nth i [b; a; c] 0%N ∨ p = nth i [a; c; b] 0%N) ∧
                 (q = nth i [b; a; c] 0%N ∨ q = nth i [a; c; b] 0%N ∨ q = d ∨ q = e)) as (i & Hi & Ha' & Hb').
               { clear -Hp Hq. destruct Hp as [Hp|[Hp|Hp]], Hq as [Hq|[Hq|[Hq|[Hq|Hq]]]];
                 first [exists 0; cbn; split; [lia|tauto]|exists 1; cbn; split; [lia|tauto]|exists 2; cbn; split; [lia|tauto]]. }
               exists (nth i [id0; id1; id2] 0%N). rewrite HK', !elem_list4.
               destruct i as [|[|[|]]]; [| | |exfalso; clear -Hi; lia]; cbn [nth] in *; rewrite ?F0, ?F1, ?F2; cbn; clear -Ha' Hb'; tauto. }
             assert (∀ z, z ∈ list4 (t_vs (F id)) → z = a ∨ z = b ∨ z = c ∨ z = d ∨ z = e) as Hz.
             { intros z Hz. apply HK in Hid as [-> | -> ]; rewrite ?HV0, ?HV1 in Hz; clear -Hz; tauto. }
             assert ((x = a ∨ x = b ∨ x = c) ∨ (y = a ∨ y = b ∨ y = c)) as Hor.
             { apply HK in Hid as [-> | -> ]; rewrite ?HV0, ?HV1 in Ha; rewrite ?HV0, ?HV1 in Hb; clear -Ha Hb Hab; naive_solver. }
             destruct Hor as [Hor|Hor].
             ++ destruct (Hpair x y Hor (Hz y Hb)) as (i & M1 & M2 & M3). exists i. split; [by apply elem_of_union_r|done].
             ++ destruct (Hpair y x Hor (Hz x Ha)) as (i & M1 & M2 & M3). exists i. split; [by apply elem_of_union_r|done].
      + intros e' x y He'. destruct (decide (e' = ed)) as [-> | Ne1].
        * rewrite Hep1 in He'. apply (inj Some) in He'. by apply (sorted_2_lt d e).
        * rewrite Hep in He' by done. by apply (eo_sorted _ _ _ Heo e').
    - done.
    - intros x. cbn. rewrite !elem_of_cons, elem_of_nil. split.
      + intros [(id & Hin%HK & Hin2)|(id & Hin%HK' & Hin2)].
        * destruct Hin as [-> | -> ]; rewrite ?HV0, ?HV1 in Hin2; clear -Hin2; tauto.
        * destruct Hin as [-> | [-> | -> ]]; rewrite ?F0, ?F1, ?F2, elem_list4 in Hin2; cbn in Hin2; clear -Hin2; tauto.
      + intros H. left. destruct (decide (x = e)) as [->|Hxe].
        * exists id1. rewrite HK, HV1. clear. tauto.
        * exists id0. rewrite HK, HV0. clear -H Hxe. tauto.
    - intros x w Hx _. cbn in Hx. rewrite !elem_of_cons, elem_of_nil in Hx.
      assert (∀ i j, (i = id0 ∨ i = id1 ∨ i = id2) → j < 12 → vd K' (Walker i j)) as Y.
      { intros i j Hi Hj. split; [by apply HK'|done]. }
      cbn [last_ref].
      destruct Hx as [-> | [-> | [-> | [-> | [-> | []]]]]]; repeat case_decide; try congruence;
        (split; [apply Y; [clear; tauto|clear; lia]|]); unfold vv; cbn [w_tet w_edge]; rewrite ?F0, ?F1, ?F2; reflexivity.
    - intros x (id & Hid%HK' & Hin).
      assert (∃ id1, id1 ∈ K ∧ x ∈ list4 (t_vs (F id1))) as (id' & Hid' & Hin').
      { destruct (decide (x = e)) as [->|Hxe].
        - exists id1. rewrite HK, HV1. clear. tauto.
        - exists id0. rewrite HK, HV0. rewrite elem_list4 in Hin.
          destruct Hid as [-> | [-> | -> ]]; rewrite ?F0, ?F1, ?F2 in Hin; cbn in Hin; clear -Hin Hxe; tauto. }
      destruct (first_of_tet F id' x Hin') as (w & W1 & W2 & W3). rewrite <- W3. apply (vm_ex _ _ _ Hvm).
      split; [rewrite W1; by apply elem_of_union_r|done].
    - intros id. rewrite HK, !elem_of_cons, elem_of_nil. clear. tauto.
    - intros id. rewrite HK', !elem_of_cons, elem_of_nil. clear. tauto.
    - done.
    - done.
  Qed.
End flip23ok.
