(** The 1-to-4 flip on a consistent mesh. *)
From stdpp Require Import base numbers list gmap option relations.
From Coq Require Import NArith ZArith ZifyN ZifyNat ZifyBool Lia.
From Verif Require Import IdMapModel IdMapSpec IdMapProofs IdMapMore WalkerModel WalkerSpec WalkerProofs SortProofs
  MeshModel WalkerMore MeshSpec MeshViews Surgery MeshLink MeshRun FlipBase FlipRun.
Local Open Scope nat_scope.

Section flip14.
  Context {V T : Type}.
  Implicit Types (m : mesh V T) (F G : N → tet T) (w u : walker) (L O K : gset N) (id : N).

  (** The four tets after the flip. *)
  Definition f14_tets (t : tet T) (v : N) (id0 id1 id2 id3 : N) (e0 e1 e2 e3 : N) : list (N * tet T) :=
    let '(Tet (A4 p q r s) (A4 o0 o1 o2 o3) (A6 x0 x1 x2 x3 x4 x5) fl val) := t in
    [(id0, Tet (A4 v q r s) (A4 o0 (Walker id1 0) (Walker id2 4) (Walker id3 8))
             (A6 x0 e1 x2 e3 x4 e2) (lk4 fl (A4 (q0 (f_locked fl)) false false false)) val);
     (id1, Tet (A4 p v r s) (A4 (Walker id0 1) o1 (Walker id2 9) (Walker id3 5))
             (A6 x0 e0 e2 x3 e3 x5) (lk4 fl (A4 false (q1 (f_locked fl)) false false)) val);
     (id2, Tet (A4 p q v s) (A4 (Walker id0 6) (Walker id1 10) o2 (Walker id3 2))
             (A6 e3 x1 e1 x3 x4 e0) (lk4 fl (A4 false false (q2 (f_locked fl)) false)) val);
     (id3, Tet (A4 p q r v) (A4 (Walker id0 11) (Walker id1 7) (Walker id2 3) o3)
             (A6 e2 x1 x2 e0 e1 x5) (lk4 fl (A4 false false false (q3 (f_locked fl)))) val)].

  Definition f14_refs (vs : arr4 N) (v : N) (self : walker) (id1 id2 id3 : N) : list (N * walker) :=
    [(v, self); (q0 vs, Walker id2 3); (q1 vs, Walker id3 2);
     (q2 vs, Walker (w_tet self) 1); (q3 vs, Walker id1 0)].

  Lemma link_step m L l G0 G rl id i a t k :
    tst m L (ov l G) → relinked G0 G rl → l !! k = Some (id, t) → NoDup l.*1 → id ∈ L → i < 4 →
    get4 (t_opp t) i = a → vd L a → w_tet a ∉ l.*1 → oppok G0 (w_tet a) →
    (∀ a' u', (a', u') ∈ rl → ¬ sf a' a) →
    ∃ m' G', (t ← tet_get m id;
           tet_upd m (w_tet (get4 (t_opp t) i)) (λ t', set_opp (w_edge (get4 (t_opp t) i) mod 4)
              (Walker id (w_edge (get4 (t_opp t') (w_edge (get4 (t_opp t) i) mod 4)))) t')) = Some m' ∧
      tst m' L (ov l G') ∧
      relinked G0 G' ((a, Walker id (w_edge (av G0 a))) :: rl) ∧ same_rest m m'.
  Proof.
    intros Hst Hrl Hk Hnd Hid Hi Ea Ha Hout Hop Hnew.
    rewrite (mv_in _ _ _ _ (proj1 Hst) Hid). cbn [mbind option_bind]. rewrite (ov_in l G id t k) by done.
    rewrite Ea.
    match goal with |- context [tet_upd m (w_tet a) ?f] =>
      destruct (upd_out m L l G (w_tet a) f Hst Hout (proj1 Ha)) as (m' & E & Hst' & Hr) end.
    rewrite E. eexists m', _. split; [reflexivity|]. split; [exact Hst'|]. split; [|done].
    pose proof (relinked_step G0 G rl a id 3 Hrl (proj2 Ha) Hop ltac:(lia) Hnew) as H.
    assert (∀ b, b < 12 → perm_inv 3 b = b) as Hp.
    { intros b Hb. case12 b Hb; reflexivity. }
    rewrite !Hp in H; [exact H|by apply av_ok|].
    rewrite (rl_entry _ _ _ Hrl).
    - apply Hop. by apply Nat.mod_upper_bound.
    - by apply Nat.mod_upper_bound.
    - intros a' u' Hin E1 E2. by apply (Hnew a' u' Hin).
  Qed.

  Record f14_result m L F (self : walker) (v : N) m' (ids es : list N) G : Prop := F14Result {
    r14_ids : ∃ id1 id2 id3, ids = [w_tet self; id1; id2; id3] ∧ id1 ∉ L ∧ id2 ∉ L ∧ id3 ∉ L ∧
      id1 ≠ id2 ∧ id1 ≠ id3 ∧ id2 ≠ id3;
    r14_es : ∃ e0 e1 e2 e3, es = [e0; e1; e2; e3] ∧ NoDup es;
    r14_esfresh e : e ∈ es → im_get (m_edges m) e = None;
    r14_tst : tst m' (list_to_set ids ∪ L)
      (ov (f14_tets (F (w_tet self)) v (nth 0 ids 0%N) (nth 1 ids 0%N) (nth 2 ids 0%N) (nth 3 ids 0%N)
             (nth 0 es 0%N) (nth 1 es 0%N) (nth 2 es 0%N) (nth 3 es 0%N)) G);
    r14_rl : relinked F G ((λ i, (get4 (t_opp (F (w_tet self))) i, Walker (nth i ids 0%N) i)) <$> [3; 2; 1]);
    r14_verts : vrel (m_verts m) (m_verts m')
      (f14_refs (t_vs (F (w_tet self))) v self (nth 1 ids 0%N) (nth 2 ids 0%N) (nth 3 ids 0%N));
    r14_wfe : im_wf (m_edges m');
    r14_enew i e x : es !! i = Some e → list4 (t_vs (F (w_tet self))) !! i = Some x →
      im_get (m_edges m') e = Some (uedge_new (x, v));
    r14_eold e : e ∉ es → im_get (m_edges m') e = im_get (m_edges m) e;
    r14_npie : (im_npi (m_edges m') ≤ im_npi (m_edges m) + 4)%N;
    r14_npit : (im_npi (m_tets m') ≤ im_npi (m_tets m) + 3)%N;
    r14_gf : m_ghost_flags m' = m_ghost_flags m;
    r14_track : m_track m' = m_track m;
    r14_center : m_center m' = m_center m;
    r14_tm : m_track m = true → tmrel F [w_tet self]
      (ov (f14_tets (F (w_tet self)) v (nth 0 ids 0%N) (nth 1 ids 0%N) (nth 2 ids 0%N) (nth 3 ids 0%N)
             (nth 0 es 0%N) (nth 1 es 0%N) (nth 2 es 0%N) (nth 3 es 0%N)) G) ids (m_trimap m) (m_trimap m')
  }.

  Ltac upd k m' Hr :=
    match goal with
    | HS : tst ?m ?L (ov ?l ?G) |- context [tet_upd ?m ?i ?f] =>
      let E := fresh "E" in let HS' := fresh "HS" in
      destruct (upd_ov m L l G i _ k f HS eq_refl ltac:(assumption) ltac:(assumption)) as (m' & E & HS' & Hr);
      rewrite E; clear E; cbn [mbind option_bind insert list_insert] in HS' |- *;
      clear HS; rename HS' into HS
    end.

  Lemma flip14_run m L F self v :
    vmesh m L F → vd L self → is_Some (im_get (m_verts m) v) → v ∉ list4 (t_vs (F (w_tet self))) →
    (im_npi (m_tets m) + 3 ≤ u32_mod)%N → (im_npi (m_edges m) + 4 ≤ u32_mod)%N →
    ∃ m' ids es G,
      flip14_unchecked m self v = Some (m', A4 (Walker (nth 0 ids 0%N) 0) (Walker (nth 1 ids 0%N) 1)
                                              (Walker (nth 2 ids 0%N) 2) (Walker (nth 3 ids 0%N) 3)) ∧
      f14_result m L F self v m' ids es G.
  Proof.
    intros Hvm Hself Hv Hvn Hnt Hne. destruct Hvm as [Hmv Hwv Hwe Hwt Hg Hok Hex Heo Hvr Htm].
    pose proof Hself as [HidL Hse]. set (id0 := w_tet self) in *.
    unfold flip14_unchecked. fold id0.
    assert (tst m L F) as Hst by done.
    rewrite (mv_in _ _ _ _ Hmv HidL). cbn [mbind option_bind].
    destruct (insert_st m L F (F id0) Hst ltac:(lia)) as (m1 & id1 & E1 & N1 & Hst1 & P1 & _ & A1 & A2 & A3 & A4' & A5 & A6').
    rewrite E1. clear E1.
    rewrite (mv_in _ _ _ _ (proj1 Hst1)) by inu. cbn [mbind option_bind].
    assert (id0 ≠ id1) as D01 by (intros E; apply N1; by rewrite <- E).
    rewrite !fupd_ne by done.
    destruct (insert_st m1 _ _ (F id0) Hst1 ltac:(lia)) as (m2 & id2 & E2 & N2 & Hst2 & P2 & _ & B1 & B2 & B3 & B4 & B5 & B6).
    rewrite E2. clear E2.
    rewrite (mv_in _ _ _ _ (proj1 Hst2)) by inu. cbn [mbind option_bind].
    assert (id0 ≠ id2) as D02 by (intros E; apply N2; rewrite <- E; inu).
    assert (id1 ≠ id2) as D12 by (intros E; apply N2; rewrite <- E; inu).
    rewrite !fupd_ne by done.
    destruct (insert_st m2 _ _ (F id0) Hst2 ltac:(lia)) as (m3 & id3 & E3 & N3 & Hst3 & P3 & _ & C1 & C2 & C3 & C4 & C5 & C6).
    rewrite E3. clear E3.
    assert (id0 ≠ id3) as D03 by (intros E; apply N3; rewrite <- E; inu).
    assert (id1 ≠ id3) as D13 by (intros E; apply N3; rewrite <- E; inu).
    assert (id2 ≠ id3) as D23 by (intros E; apply N3; rewrite <- E; inu).
    set (L' := ({[id3]} ∪ ({[id2]} ∪ ({[id1]} ∪ L)) : gset N)) in *.
    assert (NoDup [id0; id1; id2; id3]) as Hnd by (apply NoDup4; done).
    assert (id0 ∈ L') as I0 by (unfold L'; inu). assert (id1 ∈ L') as I1 by (unfold L'; inu).
    assert (id2 ∈ L') as I2 by (unfold L'; inu). assert (id3 ∈ L') as I3 by (unfold L'; inu).
    assert (id1 ∉ L) as N1' by done. assert (id2 ∉ L) as N2' by inu_in N2. assert (id3 ∉ L) as N3' by inu_in N3.
    assert (tst m3 L' (ov [(id0, F id0); (id1, F id0); (id2, F id0); (id3, F id0)] F)) as Hst4.
    { split; [|apply Hst3]. eapply mv_ext; [|apply Hst3]. intros x _. unfold fupd. cbn.
      destruct (decide (x = id0)) as [->|]; [by rewrite !decide_False|].
      destruct (decide (x = id1)) as [->|]; [by rewrite !decide_False by done|].
      destruct (decide (x = id2)) as [->|]; [by rewrite !decide_False by done|].
      destruct (decide (x = id3)) as [->|]; done. }
    clear Hst3 Hst2 Hst1.
    assert (∀ i, i < 4 → get4 (t_opp (F id0)) i = av F (Walker id0 i)) as Hopp.
    { intros i Hi. case4 i Hi; reflexivity. }
    assert (∀ i, i < 4 → vd L (Walker id0 i)) as Hvd0 by (intros i Hi; split; [done|cbn; lia]).
    assert (∀ i, i < 4 → vd L (av F (Walker id0 i))) as Hvda.
    { intros i Hi. apply (vo_adj _ _ Hok). by apply Hvd0. }
    assert (∀ i, i < 4 → w_tet (av F (Walker id0 i)) ≠ id0) as Hother.
    { intros i Hi. apply (av_other L F (Walker id0 i)); [done|by apply Hvd0]. }
    assert (∀ i j, i < 4 → j < 4 → i ≠ j → ¬ sf (av F (Walker id0 i)) (av F (Walker id0 j))) as Hnsf.
    { intros i j Hi Hj Hij Hsf. apply (sf_av L F) in Hsf; [|done|by apply Hvd0..].
      destruct Hsf as [_ Hsf]. cbn [w_edge] in Hsf. rewrite !Nat.mod_small in Hsf by lia. done. }
    assert (∀ i, i < 4 → av F (av F (Walker id0 i)) = Walker id0 i) as Hinv.
    { intros i Hi. apply (av_av L F); [done|by apply Hvd0]. }
    destruct (F id0) as [[p q r s] [o0 o1 o2 o3] [x0 x1 x2 x3 x4 x5] fl val] eqn:EF.
    cbn in Hvn. unfold list4 in Hvn. cbn in Hvn. rewrite !not_elem_of_cons in Hvn. destruct Hvn as (Vp&Vq&Vr&Vs&_).
    pose proof (Hopp 0 ltac:(clear; lia)) as O0. pose proof (Hopp 1 ltac:(clear; lia)) as O1.
    pose proof (Hopp 2 ltac:(clear; lia)) as O2. pose proof (Hopp 3 ltac:(clear; lia)) as O3. cbn in O0, O1, O2, O3.
    rename Hst4 into HS. clear Hst.
    upd 0 m4 Hr4. upd 1 m5 Hr5. upd 2 m6 Hr6. upd 3 m7 Hr7'.
    rename HS into Hst5. set (F1 := ov _ F) in Hst5.
    (* triangle map *)
    destruct (trimap_remove_tets_st m7 L' F1 [id0] (proj1 Hst5)) as (tm1 & E & Htm1).
    { intros id ->%elem_of_list_singleton. done. }
    rewrite E. clear E. cbn [mbind option_bind].
    set (m8 := with_trimap m7 tm1).
    assert (same_rest m3 m7) as Hr7.
    { eapply same_rest_trans; [|eassumption]. eapply same_rest_trans; [|eassumption].
      eapply same_rest_trans; eassumption. }
    assert (m_verts m8 = m_verts m) as Ev8.
    { cbn. rewrite (sr_verts _ _ Hr7). congruence. }
    unfold vert_ref_idx. rewrite Ev8. destruct Hv as [vt Hv]. rewrite Hv. cbn [mbind option_bind].
    (* vertex references *)
    assert (tet_get (vert_ref m8 v self) id0 = Some (F1 id0)) as Eg.
    { unfold tet_get. destruct (vert_ref_st m8 v self) as (-> & _); [by rewrite Ev8|].
      by apply (mv_in _ _ _ _ (proj1 Hst5)). }
    rewrite Eg. cbn [mbind option_bind].
    assert (F1 id0 = Tet (A4 p q r s) (A4 o0 o1 o2 o3) (A6 x0 x1 x2 x3 x4 x5)
       (lk4 fl (A4 (q0 (f_locked fl)) false false false)) val) as EF1.
    { unfold F1. cbn. rewrite decide_True by done. reflexivity. }
    rewrite EF1. cbn [t_vs q0 q1 q2 q3].
    change (vert_ref (vert_ref (vert_ref (vert_ref (vert_ref m8 v self) p (Walker id2 3)) q (Walker id3 2)) r
      (Walker id0 1)) s (Walker id1 0)) with (vert_refs m8 (f14_refs (A4 p q r s) v self id1 id2 id3)).
    set (m9 := vert_refs m8 _).
    destruct (vert_refs_vrel m8 (f14_refs (A4 p q r s) v self id1 id2 id3)) as (Hvrel & G1 & G2 & G3 & G4 & G5 & G6); [by rewrite Ev8|].
    fold m9 in Hvrel, G1, G2, G3, G4, G5, G6. rewrite Ev8 in Hvrel.
    assert (tst m9 L' F1) as Hst9.
    { unfold tst, mv, tet_get. rewrite G1. exact Hst5. }
    clearbody m9.
    (* edges *)
    assert (m_edges m9 = m_edges m) as Ee9.
    { rewrite G3. cbn. rewrite (sr_edges _ _ Hr7). congruence. }
    unfold edges_extend. rewrite Ee9.
    set (nv := uedge_new <$> _).
    pose proof (wf_extend_values nv (m_edges m) Hwe) as Hw. unfold nv in Hw at 1. cbn [length fmap list_fmap] in Hw.
    specialize (Hw ltac:(clear -Hne; lia)).
    destruct (im_extend_values (m_edges m) nv) as [es' es]. destruct Hw as (We & Ne & Hsf).
    destruct (stores_fresh_exact _ _ _ _ Hsf) as (S1 & S2 & S3 & S4 & S5).
    unfold nv in S1. cbn [length fmap list_fmap] in S1.
    destruct es as [|e0 [|e1 [|e2 [|e3 [|]]]]]; try done. clear S1. cbn [nth].
    set (m10 := with_edges m9 es').
    assert (tst m10 L' F1) as Hst10 by exact Hst9.
    unfold F1 in Hst10. clear Hst9 Hst5.
    rename Hst10 into HS.
    upd 0 m11 Hr11. upd 1 m12 Hr12. upd 2 m13 Hr13. upd 3 m14 Hr14.
    rename HS into Hst5.
    cbn [set_edge set_opp set_v set_locked set_flags set4 set6 t_vs t_opp t_edges t_flags t_val f_locked f_imm f_limit f_boundary f_wfv f_dup f_notenc] in Hst5.
    assert (tst m14 L' (ov (f14_tets (Tet (A4 p q r s) (A4 o0 o1 o2 o3) (A6 x0 x1 x2 x3 x4 x5) fl val) v id0 id1 id2 id3 e0 e1 e2 e3) F)) as Hst14.
    { exact Hst5. }
    clear Hst5.
    set (l := f14_tets _ _ _ _ _ _ _ _ _ _) in Hst14.
    assert (l.*1 = [id0; id1; id2; id3]) as El1.
    { reflexivity. }
    assert (∀ i, i < 4 → w_tet (av F (Walker id0 i)) ∉ l.*1) as Hlout.
    { intros i Hi. rewrite El1. rewrite !not_elem_of_cons.
      pose proof (proj1 (Hvda i Hi)). split; [by apply Hother|]. repeat split; try (intros E; congruence). by apply not_elem_of_nil. }
    assert (∀ i, i < 4 → vd L' (av F (Walker id0 i))) as Hvda'.
    { intros i Hi. destruct (Hvda i Hi). split; [|done]. unfold L'. inu. }
    assert (∀ i, i < 4 → oppok F (w_tet (av F (Walker id0 i)))) as Hopk.
    { intros i Hi. apply (vok_oppok L); [done|]. by apply Hvda. }
    cbn [mfoldl].
    destruct (link_step m14 L' l F F [] id1 1 (av F (Walker id0 1))
      (Tet (A4 p v r s) (A4 (Walker id0 1) o1 (Walker id2 9) (Walker id3 5))
             (A6 x0 e0 e2 x3 e3 x5) (lk4 fl (A4 false (q1 (f_locked fl)) false false)) val) 1)
      as (m15 & G15 & E & Hst15 & Hrl15 & Hr15);
      [done|apply relinked_nil|reflexivity|by rewrite El1|done|clear; lia|done
      |apply Hvda'; clear; lia|apply Hlout; clear; lia|apply Hopk; clear; lia|by intros ? ? ?%elem_of_nil|].
    rewrite E; clear E; cbn [mbind option_bind].
    destruct (link_step m15 L' l F G15 _ id2 2 (av F (Walker id0 2))
      (Tet (A4 p q v s) (A4 (Walker id0 6) (Walker id1 10) o2 (Walker id3 2))
             (A6 e3 x1 e1 x3 x4 e0) (lk4 fl (A4 false false (q2 (f_locked fl)) false)) val) 2 Hst15 Hrl15)
      as (m16 & G16 & E & Hst16 & Hrl16 & Hr16);
      [reflexivity|by rewrite El1|done|clear; lia|done
      |apply Hvda'; clear; lia|apply Hlout; clear; lia|apply Hopk; clear; lia| |].
    { intros a' u' [[= -> ->]|?%elem_of_nil]%elem_of_cons; [|done]. apply Hnsf; clear; lia. }
    rewrite E; clear E; cbn [mbind option_bind].
    destruct (link_step m16 L' l F G16 _ id3 3 (av F (Walker id0 3))
      (Tet (A4 p q r v) (A4 (Walker id0 11) (Walker id1 7) (Walker id2 3) o3)
             (A6 e2 x1 x2 e0 e1 x5) (lk4 fl (A4 false false false (q3 (f_locked fl)))) val) 3 Hst16 Hrl16)
      as (m17 & G17 & E & Hst17 & Hrl17 & Hr17);
      [reflexivity|by rewrite El1|done|clear; lia|done
      |apply Hvda'; clear; lia|apply Hlout; clear; lia|apply Hopk; clear; lia| |].
    { intros a' u' [[= -> ->]|[[= -> ->]|?%elem_of_nil]%elem_of_cons]%elem_of_cons; [| |done]; apply Hnsf; clear; lia. }
    rewrite E; clear E; cbn [mbind option_bind].
    destruct (trimap_insert_tets_st m17 L' (ov l G17) [id0; id1; id2; id3] (proj1 Hst17)) as (tm2 & E & Htm2).
    { intros id. rewrite !elem_of_cons, elem_of_nil. intros [-> | [-> | [-> | [-> | []]]]]; done. }
    rewrite E; clear E; cbn [mbind option_bind].
    assert (same_rest m10 m17) as Hr.
    { repeat (eapply same_rest_trans; [|eassumption]). apply same_rest_refl. }
    eexists _, [id0; id1; id2; id3], [e0; e1; e2; e3], G17. cbn [nth]. split; [reflexivity|].
    assert (m_track m7 = m_track m) as Et7 by (rewrite (sr_track _ _ Hr7); congruence).
    assert (m_track m17 = m_track m) as Et17.
    { rewrite (sr_track _ _ Hr). cbn. rewrite G5. cbn. done. }
    split; fold id0; cbn [nth m_verts m_edges m_tets m_ghost_flags m_track m_center m_trimap with_trimap].
    - exists id1, id2, id3. done.
    - exists e0, e1, e2, e3. done.
    - exact S3.
    - rewrite EF. fold l.
      replace (list_to_set [id0; id1; id2; id3] ∪ L) with L'; [exact Hst17|]. unfold L'. clear -HidL. set_solver.
    - rewrite EF. cbn. rewrite O1, O2, O3. rewrite !Hinv in Hrl17 by (clear; lia). exact Hrl17.
    - rewrite EF. cbn [t_vs]. by rewrite (sr_verts _ _ Hr).
    - rewrite (sr_edges _ _ Hr). exact We.
    - intros i e x He Hx. rewrite EF in Hx. rewrite (sr_edges _ _ Hr). cbn [m10 m_edges with_edges].
      apply (S4 i); [done|]. unfold nv. clear -He Hx.
      destruct i as [|[|[|[|i]]]]; cbn in *; [congruence..|]. destruct i; done.
    - intros e He. rewrite (sr_edges _ _ Hr). cbn [m10 m_edges with_edges]. by apply S5.
    - rewrite (sr_edges _ _ Hr). cbn. unfold nv in Ne. cbn in Ne. clear -Ne. lia.
    - rewrite (sr_npi _ _ Hr). cbn [m10 m_tets with_edges]. rewrite G1. cbn [m8 m_tets with_trimap].
      rewrite (sr_npi _ _ Hr7). clear -P1 P2 P3. lia.
    - rewrite (sr_gf _ _ Hr). cbn. rewrite G2. cbn. rewrite (sr_gf _ _ Hr7). congruence.
    - exact Et17.
    - rewrite (sr_center _ _ Hr). cbn. rewrite G6. cbn. rewrite (sr_center _ _ Hr7). congruence.
    - intros Ht. exists tm1. split.
      + rewrite Et7 in Htm1. specialize (Htm1 Ht).
        assert (tkeys F1 [id0] = tkeys F [id0]) as Ek.
        { unfold tkeys, tkey, vv. cbn [mbind list_bind fmap list_fmap w_tet w_edge app].
          rewrite EF, EF1. done. }
        rewrite Ek in Htm1. intros k. specialize (Htm1 k).
        replace (m_trimap m) with (m_trimap m7); [done|]. rewrite (sr_tm _ _ Hr7). congruence.
      + rewrite EF. fold l. cbv zeta. rewrite Et17 in Htm2. destruct (Htm2 Ht) as [Q1 Q2].
        split; [|exact Q2]. intros k Hk. rewrite Q1 by done. rewrite (sr_tm _ _ Hr). cbn. rewrite G4. done.
  Qed.

  Lemma flip14_facts m L F self v m' ids es G :
    vmesh m L F → vd L self → (∀ id, id ∈ L → v ∉ list4 (t_vs (F id))) →
    f14_result m L F self v m' ids es G →
    let F' := ov (f14_tets (F (w_tet self)) v (nth 0 ids 0%N) (nth 1 ids 0%N) (nth 2 ids 0%N) (nth 3 ids 0%N)
             (nth 0 es 0%N) (nth 1 es 0%N) (nth 2 es 0%N) (nth 3 es 0%N)) G in
    let O := L ∖ {[w_tet self]} in
    surgery O {[w_tet self]} F (list_to_set ids) F'.
  Proof.
    intros Hvm Hself Hvn Hres F' O.
    destruct Hres as [(id1&id2&id3&->&N1&N2&N3&D12&D13&D23) (e0&e1&e2&e3&->&He) Hef Hst Hrl _ _ _ _ _ _ _ _ _ _].
    cbn [nth] in *. destruct Hvm as [Hmv Hwv Hwe Hwt Hg Hok Hex Heo Hvr Htm].
    pose proof Hself as [HidL Hse]. set (id0 := w_tet self) in *.
    assert (L = O ∪ {[id0]}) as EL.
    { apply set_eq. intros x. unfold O. rewrite elem_of_union, elem_of_difference, elem_of_singleton.
      destruct (decide (x = id0)) as [->|]; tauto. }
    assert (O ## {[id0]}) as HD by (unfold O; clear; set_solver).
    assert (id0 ≠ id1 ∧ id0 ≠ id2 ∧ id0 ≠ id3) as (D01 & D02 & D03) by (repeat split; intros E; congruence).
    assert (∀ x, x ∈ O → x ≠ id0 ∧ x ≠ id1 ∧ x ≠ id2 ∧ x ≠ id3) as HOne.
    { intros x Hx. unfold O in Hx. apply elem_of_difference in Hx as [Hx1 Hx2]. rewrite elem_of_singleton in Hx2.
      repeat split; intros E; congruence. }
    assert (∀ i, i < 4 → vd L (Walker id0 i)) as Hvd0 by (intros i Hi; split; [done|cbn; lia]).
    assert (∀ i, i < 4 → vd O (av F (Walker id0 i))) as Hvda.
    { intros i Hi. destruct (vo_adj _ _ Hok (Walker id0 i)) as [[H1 H2] _]; [by apply Hvd0|].
      split; [|done]. unfold O. rewrite elem_of_difference, elem_of_singleton. split; [done|].
      apply (av_other L F (Walker id0 i)); [done|by apply Hvd0]. }
    assert (∀ i, i < 4 → av F (av F (Walker id0 i)) = Walker id0 i) as Hinv.
    { intros i Hi. apply (av_av L F); [done|by apply Hvd0]. }
    assert (∀ i, i < 4 → get4 (t_opp (F id0)) i = av F (Walker id0 i)) as Hopp.
    { intros i Hi. case4 i Hi; reflexivity. }
    assert (∀ x, x ∈ O → F' x = G x) as HFO.
    { intros x Hx. destruct (HOne x Hx) as (?&?&?&?). unfold F', f14_tets.
      destruct (F id0) as [[] [] [] ? ?]. cbn. by rewrite !decide_False. }
    assert (∀ i, i < 4 → oppok F id0) as Hop0 by (intros; by apply (vok_oppok L)).
    destruct (F id0) as [[p q r s] [o0 o1 o2 o3] [x0 x1 x2 x3 x4 x5] fl val] eqn:EF.
    assert (F' id0 = Tet (A4 v q r s) (A4 o0 (Walker id1 0) (Walker id2 4) (Walker id3 8))
             (A6 x0 e1 x2 e3 x4 e2) (lk4 fl (A4 (q0 (f_locked fl)) false false false)) val) as F0.
    { unfold F'. cbn. by rewrite decide_True. }
    assert (F' id1 = Tet (A4 p v r s) (A4 (Walker id0 1) o1 (Walker id2 9) (Walker id3 5))
             (A6 x0 e0 e2 x3 e3 x5) (lk4 fl (A4 false (q1 (f_locked fl)) false false)) val) as F1.
    { unfold F'. cbn. rewrite decide_False by done. by rewrite decide_True. }
    assert (F' id2 = Tet (A4 p q v s) (A4 (Walker id0 6) (Walker id1 10) o2 (Walker id3 2))
             (A6 e3 x1 e1 x3 x4 e0) (lk4 fl (A4 false false (q2 (f_locked fl)) false)) val) as F2.
    { unfold F'. cbn. rewrite !decide_False by done. by rewrite decide_True. }
    assert (F' id3 = Tet (A4 p q r v) (A4 (Walker id0 11) (Walker id1 7) (Walker id2 3) o3)
             (A6 e2 x1 x2 e0 e1 x5) (lk4 fl (A4 false false false (q3 (f_locked fl)))) val) as F3.
    { unfold F'. cbn. rewrite !decide_False by done. by rewrite decide_True. }
    clearbody F'.
    pose proof (Hopp 0 ltac:(lia)) as O0. pose proof (Hopp 1 ltac:(lia)) as O1.
    pose proof (Hopp 2 ltac:(lia)) as O2. pose proof (Hopp 3 ltac:(lia)) as O3. cbn in O0, O1, O2, O3. clear Hopp.
    (* crossing inwards *)
    assert (∀ i, i < 4 → av F' (av F (Walker id0 i)) = Walker (nth i [id0; id1; id2; id3] 0%N) i) as Hin'.
    { intros i Hi. unfold av at 1. rewrite HFO by (by apply Hvda). change (av G (av F (Walker id0 i)) = Walker (nth i [id0; id1; id2; id3] 0%N) i).
      cbn in Hrl. rewrite O1, O2, O3 in Hrl.
      destruct (decide (i = 0)) as [->|Hi0].
      - rewrite (rl_out _ _ _ Hrl); [by rewrite Hinv by lia|apply Hvda; lia|].
        intros a u Hau Hsf. rewrite !elem_of_cons in Hau.
        assert (∃ j, j < 4 ∧ j ≠ 0 ∧ a = av F (Walker id0 j)) as (j & Hj & Hj0 & ->).
        { destruct Hau as [[= -> ->]|[[= -> ->]|[[= -> ->]|?%elem_of_nil]]]; [exists 3|exists 2|exists 1|done]; (split; [lia|done]). }
        apply (sf_av L F) in Hsf; [|done|apply Hvd0; lia..]. destruct Hsf as [_ Hsf]. cbn [w_edge] in Hsf.
        rewrite !Nat.mod_small in Hsf by lia. done.
      - apply (rl_in _ _ _ Hrl). rewrite !elem_of_cons. clear -Hi Hi0.
        destruct i as [|[|[|[|]]]]; try lia; tauto. }
    assert (∀ i, i < 4 → tri3 (vv F' (Walker (nth i [id0; id1; id2; id3] 0%N) i)) = tri3 (vv F (Walker id0 i)) ∧
      lv F' (Walker (nth i [id0; id1; id2; id3] 0%N) i) = lv F (Walker id0 i)) as Htri.
    { intros i Hi. unfold vv, lv. cbn [w_tet w_edge]. rewrite EF.
      case4 i Hi; cbn [nth]; rewrite ?F0, ?F1, ?F2, ?F3; done. }
    assert (∀ id, id ∈ O → oppok F' id) as HopO.
    { intros id Hid. assert (oppok G id) as H.
      { apply (rl_oppok _ _ _ Hrl). apply (vok_oppok L F); [done|]. rewrite EL. inu. }
      intros i Hi. rewrite HFO by done. by apply H. }
    assert (∀ id, id ∈ (list_to_set [id0; id1; id2; id3] : gset N) ↔ id = id0 ∨ id = id1 ∨ id = id2 ∨ id = id3) as HK'.
    { intros id. rewrite elem_of_list_to_set, !elem_of_cons, elem_of_nil. tauto. }
    assert (∀ i, i < 4 → w_edge (av F (Walker id0 i)) < 12) as Hedge by (intros i Hi; by apply Hvda).
    assert (∀ id, id ∈ (list_to_set [id0; id1; id2; id3] : gset N) → oppok F' id) as HopK'.
    { intros id Hid%HK' i Hi.
      destruct Hid as [-> | [-> | [-> | -> ]]]; rewrite ?F0, ?F1, ?F2, ?F3; case4 i Hi; cbn; try lia;
        rewrite ?O0, ?O1, ?O2, ?O3; apply Hedge; lia. }
    assert (NoDup [p; q; r; s]) as Hnd.
    { pose proof (vo_nodup _ _ Hok id0 HidL) as H. by rewrite EF in H. }
    assert (v ∉ [p; q; r; s]) as Hvpq.
    { pose proof (Hvn id0 HidL) as H. by rewrite EF in H. }
    apply NoDup4 in Hnd as (Q1&Q2&Q3&Q4&Q5&Q6).
    rewrite !not_elem_of_cons in Hvpq. destruct Hvpq as (V1&V2&V3&V4&_).
    assert (∀ id, id ∈ O → v ∉ list4 (t_vs (F id))) as HvO.
    { intros id Hid. apply Hvn. rewrite EL. inu. }
    assert (∀ id, id ∈ O → t_vs (F' id) = t_vs (F id)) as Hvs.
    { intros id Hid. rewrite HFO by done. apply (rl_rest _ _ _ Hrl id). }
    split.
    - exact HD.
    - intros x Hx Hx'%HK'. destruct (HOne x Hx) as (?&?&?&?). tauto.
    - exact Hvs.
    - intros id Hid. rewrite HFO by done. destruct (rl_rest _ _ _ Hrl id) as (_&_&E&_). by rewrite E.
    - apply (sg_out_relinked O {[id0]} F G F' _ Hrl HFO HD).
      intros a u Hau. cbn in Hau. rewrite !elem_of_cons, O1, O2, O3 in Hau. rewrite elem_of_singleton.
      destruct Hau as [[= -> ->]|[[= -> ->]|[[= -> ->]|?%elem_of_nil]]]; [rewrite Hinv by lia; done..|done].
    - apply (sg_bd_idx O {[id0]}); [done|by rewrite <- EL|done|].
      intros id i ->%elem_of_singleton Hi _. unfold sg_bdP. rewrite Hin' by done.
      destruct (Htri i Hi) as [Ht1 Ht2]. destruct (vo_adj _ _ Hok (Walker id0 i) (Hvd0 i Hi)) as [_ Htw].
      split; [split; [|cbn; lia]|split].
      + apply HK'. cbn [w_tet]. case4 i Hi; cbn; tauto.
      + apply twist_sym in Htw. apply tri3_eq in Ht1 as (E1 & E2 & E3). unfold twist in *. rewrite E1, E2, E3. exact Htw.
      + rewrite Ht2. symmetry. apply (vo_lock _ _ Hok). by apply Hvd0.
    - intros id Hid%HK'.
      destruct Hid as [-> | [-> | [-> | -> ]]]; rewrite ?F0, ?F1, ?F2, ?F3; apply NoDup4; done.
    - apply (sg_faces O {[id0]}); [done..|]. intros id i Hid%HK' Hi.
      assert (∀ u, v ∈ [q0 (vv F' u); q1 (vv F' u); q2 (vv F' u)] →
        ∀ w, vd O w → tri3 (vv F w) ≠ tri3 (vv F' u)) as Hno.
      { intros u Hu w Hw E. apply (HvO _ (proj1 Hw)). rewrite <- (vv_elem F w) by apply Hw.
        apply tri3_eq in E as (E1 & E2 & E3). unfold list4. rewrite !elem_of_cons.
        rewrite !elem_of_cons, elem_of_nil in Hu. rewrite E1, E2, E3. tauto. }
      assert (id = nth i [id0; id1; id2; id3] 0%N ∨ id ≠ nth i [id0; id1; id2; id3] 0%N) as [->|Hne]
        by (destruct (decide (id = nth i [id0; id1; id2; id3] 0%N)); tauto).
      + right. unfold sg_outer.
        assert (av F' (Walker (nth i [id0; id1; id2; id3] 0%N) i) = av F (Walker id0 i)) as ->.
        { unfold av at 1. cbn [w_tet w_edge]. clear Hno Hid.
          case4 i Hi; cbn [nth]; rewrite ?F0, ?F1, ?F2, ?F3; done. }
        split; [by apply Hvda|]. split; [rewrite Hinv by done; by apply elem_of_singleton|]. by apply Hin'.
      + left. unfold sg_inner. split; [|split; [|split; [|apply Hno]]];
        unfold vd, twist, vv, lv, av; cbn [w_tet w_edge]; clear Hno;
        destruct Hid as [-> | [-> | [-> | -> ]]]; case4 i Hi; try (by destruct Hne); clear Hne; rewrite ?F0, ?F1, ?F2, ?F3;
        cbn; rewrite ?HK', ?F0, ?F1, ?F2, ?F3; cbn; rewrite ?elem_of_cons;
        clear; try tauto; try (split; [tauto|lia]); try (repeat split; reflexivity).
    - intros A B HA%HK' HB%HK' HAB.
      assert (∀ x, x = id0 ∨ x = id1 ∨ x = id2 ∨ x = id3 → ∃ i, i < 4 ∧ x = nth i [id0; id1; id2; id3] 0%N) as Hnth.
      { clear. intros x [-> | [-> | [-> | -> ]]]; [exists 0|exists 1|exists 2|exists 3]; (split; [lia|done]). }
      apply Hnth in HA as (i & Hi & ->). apply Hnth in HB as (j & Hj & ->). clear Hnth.
      exists (Walker (nth i [id0; id1; id2; id3] 0%N) j).
      split; [done|]. split; [cbn; clear -Hj; lia|].
      unfold av, vv. cbn [w_tet w_edge].
      case4 i Hi; case4 j Hj; try (by destruct HAB); clear HAB; cbn [nth]; rewrite ?F0, ?F1, ?F2, ?F3; (split; [reflexivity|]);
        unfold list4; cbn [t_vs q0 q1 q2 q3 verts_at first_idx second_idx third_idx fourth_idx get4 nth];
        rewrite !not_elem_of_cons; repeat split; try assumption; try (apply not_eq_sym; assumption); by apply not_elem_of_nil.
    - intros id a b Hid%HK' Ha Hb Hab.
      destruct (decide (a = v)) as [->|Hav]; [right; intros id1' Hid1 H1 _; by apply (HvO id1')|].
      destruct (decide (b = v)) as [->|Hbv]; [right; intros id1' Hid1 _ H1; by apply (HvO id1')|].
      left. exists id0. rewrite elem_of_singleton, EF. split; [done|].
      rewrite elem_list4 in Ha, Hb. rewrite !elem_list4.
      destruct Hid as [-> | [-> | [-> | -> ]]]; rewrite ?F0, ?F1, ?F2, ?F3 in Ha; rewrite ?F0, ?F1, ?F2, ?F3 in Hb;
        cbn in Ha, Hb |- *; clear -Ha Hb Hav Hbv; tauto.
    - intros id a b ->%elem_of_singleton Ha Hb Hab. left. rewrite EF in Ha, Hb.
      rewrite elem_list4 in Ha, Hb. cbn in Ha, Hb.
      assert (∃ i, i < 4 ∧ a ≠ nth i [p; q; r; s] 0%N ∧ b ≠ nth i [p; q; r; s] 0%N) as (i & Hi & Ha' & Hb').
      { clear -Ha Hb Hab Q1 Q2 Q3 Q4 Q5 Q6.
        destruct Ha as [-> | [-> | [-> | -> ]]], Hb as [-> | [-> | [-> | -> ]]]; try done;
        first [exists 0; split; [lia|done]|exists 1; split; [lia|done]|exists 2; split; [lia|done]|exists 3; split; [lia|done]]. }
      exists (nth i [id0; id1; id2; id3] 0%N). rewrite HK', !elem_list4. clear Hab.
      case4 i Hi; cbn [nth] in *; rewrite ?F0, ?F1, ?F2, ?F3; cbn; clear -Ha Hb Ha' Hb'; tauto.
    - intros id a Hid%HK' Ha.
      destruct (decide (a = v)) as [->|Hav]; [right; intros id1' Hid1 H1; by apply (HvO id1')|].
      left. exists id0. rewrite elem_of_singleton, EF. split; [done|]. rewrite elem_list4 in Ha |- *.
      destruct Hid as [-> | [-> | [-> | -> ]]]; rewrite ?F0, ?F1, ?F2, ?F3 in Ha; cbn in Ha |- *; clear -Ha Hav; tauto.
    - intros id a ->%elem_of_singleton Ha. left. rewrite EF, elem_list4 in Ha. cbn in Ha.
      destruct (decide (a = p)) as [->|Hap].
      + exists id1. rewrite HK', F1, elem_list4. cbn. tauto.
      + exists id0. rewrite HK', F0, elem_list4. cbn. tauto.
  Qed.
End flip14.
