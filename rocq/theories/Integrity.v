(** The integrity check of the test suite accepts every consistent mesh whose vertices are all in
    use. *)
From stdpp Require Import base numbers list gmap option relations fin_sets.
From Coq Require Import NArith ZArith ZifyN ZifyNat ZifyBool Lia.
From Verif Require Import IdMapModel IdMapSpec IdMapProofs IdMapMore WalkerModel WalkerSpec WalkerProofs SortProofs
  MeshModel WalkerMore MeshOps MeshSpec MeshViews Surgery MeshLink MeshRun FlipBase FlipRun FlipSpec FlipCommon.
Local Open Scope nat_scope.

Section integrity.
  Context {V T : Type}.
  Implicit Types (m : mesh V T) (F G : N → tet T) (w u : walker) (L O K : gset N) (id : N).

  Lemma forallb_intro {A} (f : A → bool) l : (∀ x, x ∈ l → f x = true) → forallb f l = true.
  Proof.
    intros H. apply forallb_forall. intros x Hx. apply H. by apply elem_of_list_In.
  Qed.
  Lemma existsb_intro {A} (f : A → bool) l x : x ∈ l → f x = true → existsb f l = true.
  Proof. intros H Hf. apply existsb_exists. exists x. split; [by apply elem_of_list_In|done]. Qed.
  Lemma remove_dups_nodup `{EqDecision A} (l : list A) : NoDup l → remove_dups l = l.
  Proof.
    induction 1 as [|x l Hx Hnd IH]; [done|]. cbn. case_decide; [done|]. by rewrite IH.
  Qed.

  Lemma sorted_2_id a b : (a < b)%N → sorted_2 (a, b) = (a, b).
  Proof. intros H. unfold sorted_2. destruct (N.ltb_spec b a); [lia|done]. Qed.

  Lemma ai_edges_dup m : mesh_ok m → ai_no_dup_edges m = true.
  Proof.
    intros Hok. unfold ai_no_dup_edges. rewrite wf_len by apply Hok.
    apply N.eqb_eq. f_equal. unfold im_values.
    assert (NoDup ((λ e, sorted_2 (ue_vs e)) <$> (im_iter (m_edges m)).*2)) as Hnd.
    { rewrite <- list_fmap_compose. apply NoDup_fmap_2_strong.
      - intros [e ue] [e' ue'] H H' E. apply elem_of_im_iter in H, H'; [|apply Hok..]. cbn in E.
        pose proof (ok_edge_sorted _ Hok e ue H) as S1. pose proof (ok_edge_sorted _ Hok e' ue' H') as S2.
        destruct (ue_vs ue) as [a b] eqn:E1, (ue_vs ue') as [a' b'] eqn:E2. cbn in S1, S2.
        rewrite !sorted_2_id in E by done.
        assert (e = e') as -> by (apply (ok_edge_unique _ Hok e e' ue ue' H H'); congruence).
        unfold im_get in *. congruence.
      - apply (NoDup_fmap_1 fst). change ((im_iter (m_edges m)).*1) with (im_keys (m_edges m)).
        apply StronglySorted_lt_NoDup, im_keys_sorted. }
    rewrite remove_dups_nodup by done. rewrite !fmap_length.
    rewrite <- (fmap_length fst (im_iter (m_edges m))).
    change ((im_iter (m_edges m)).*1) with (im_keys (m_edges m)).
    rewrite <- (size_dom (im_slots (m_edges m))).
    assert (dom (im_slots (m_edges m)) = list_to_set (im_keys (m_edges m)) :> gset N) as ->.
    { apply set_eq. intros x. rewrite elem_of_dom, elem_of_list_to_set, elem_of_im_keys by apply Hok. done. }
    apply size_list_to_set. apply StronglySorted_lt_NoDup, im_keys_sorted.
  Qed.

  Lemma undir_idx_any vs (e : N) k : k < 12 → get6 vs (undir_idx k) = e →
    N.eqb e (s0 vs) || N.eqb e (s1 vs) || N.eqb e (s2 vs) || N.eqb e (s3 vs) || N.eqb e (s4 vs) || N.eqb e (s5 vs) = true.
  Proof.
    destruct vs as [x0 x1 x2 x3 x4 x5]. intros Hk. case12 k Hk; cbn; intros <-; rewrite N.eqb_refl;
    rewrite ?orb_true_r; done.
  Qed.

  Lemma ai_edges_used_ok m : mesh_ok m → ai_edges_used m = true.
  Proof.
    intros Hok. apply forallb_intro. intros e [ue He]%elem_of_im_keys; [|apply Hok].
    destruct (ok_edge_used _ Hok e ue He) as (w & Hw & Hp).
    destruct (ok_edge _ Hok w _ _ Hw Hp) as (e' & ue' & E1 & E2 & E3).
    pose proof (ok_edge_sorted _ Hok e ue He) as Hs.
    assert (e' = e) as ->.
    { apply (ok_edge_unique _ Hok e' e ue' ue E2 He). rewrite E3. destruct (ue_vs ue); cbn in *. by apply sorted_2_id. }
    destruct Hw as [[t Ht] Hk]. eapply existsb_intro with (x := t).
    - unfold im_values. apply elem_of_list_fmap. exists (w_tet w, t). split; [done|].
      apply elem_of_im_iter; [apply Hok|done].
    - unfold undir_edge in E1. rewrite Ht in E1. cbn in E1. apply (inj Some) in E1.
      eapply undir_idx_any; [exact Hk|exact E1].
  Qed.

  Lemma ai_tet_ok ori m id t : mesh_ok m → tet_get m id = Some t →
    (∀ f, ori = Some f → f (t_vs t) = true) → ai_tet ori m (id, t) = true.
  Proof.
    intros Hok Ht Hori. pose proof (mv_exists m id t Ht) as Hmv.
    set (L := dom (im_slots (m_tets m))) in *. set (F := λ i, default t (tet_get m i)) in *.
    pose proof (ok_vmesh m L F Hmv Hok) as Hvm. pose proof (vm_vok _ _ _ Hvm) as Hv.
    assert (id ∈ L) as Hid by (unfold L; apply elem_of_dom; by exists t).
    assert (F id = t) as EF by (unfold F; by rewrite Ht).
    unfold ai_tet. cbn [fst snd]. rewrite !andb_true_iff. split; [split; [split|]|].
    - apply Nat.eqb_eq. rewrite remove_dups_nodup; [done|]. rewrite <- EF. by apply Hv.
    - destruct ori as [f|]; [by apply Hori|done].
    - apply forallb_intro. intros i Hi%elem_of_seq. unfold ai_tri.
      assert (vd L (Walker id i)) as Hw by (split; [done|cbn; lia]).
      rewrite (mv_adj_ae _ _ _ _ Hmv (proj1 Hw)).
      change (get4 (t_opp (F (w_tet (Walker id i)))) (w_edge (Walker id i) mod 4)) with (get4 (t_opp (F id)) (i mod 4)).
      assert (get4 (t_opp (F id)) (i mod 4) = av F (Walker id i)) as ->.
      { unfold av. cbn [w_tet w_edge]. rewrite (Nat.div_small i 4) by lia. done. }
      destruct (vo_adj _ _ Hv _ Hw) as [Ha _].
      rewrite (mv_locked _ _ _ _ Hmv (proj1 Hw)), (mv_locked _ _ _ _ Hmv (proj1 Ha)).
      rewrite (vo_lock _ _ Hv _ Hw). apply eqb_reflx.
    - apply forallb_intro. intros i Hi%elem_of_seq. unfold ai_walker.
      set (w := Walker id i). assert (vd L w) as Hw by (split; [done|cbn; lia]).
      rewrite (mv_verts _ _ _ _ Hmv (proj1 Hw)), (mv_adj _ _ _ _ Hmv Hw).
      destruct (vo_adj _ _ Hv _ Hw) as [Ha (T1 & T2 & T3)].
      set (x := get4 (t_opp t) (w_edge w mod 4)).
      assert (av F w = rot (w_edge w / 4) x) as Ex by (unfold av; cbn [w_tet]; unfold w; cbn [w_tet]; by rewrite EF).
      assert (w_edge x < 12) as Hx.
      { pose proof (vok_oppok _ _ _ Hv Hid) as Ho. unfold x. rewrite <- EF. apply Ho. by apply Nat.mod_upper_bound. }
      assert (w_tet x ∈ L) as HxL.
      { destruct Ha as [Ha _]. rewrite Ex, rot_tet in Ha. done. }
      assert (q3 (vv F x) = q3 (vv F (av F w))) as Eq3.
      { rewrite Ex. destruct (w_edge w / 4) as [|[|k]]; cbn [rot]; [done|by rewrite vv_pfe|by rewrite vv_nfe]. }
      rewrite (mv_fourth _ _ _ _ Hmv HxL), (mv_verts _ _ _ _ Hmv (proj1 Ha)), (mv_adj _ _ _ _ Hmv Ha).
      rewrite (av_av _ _ _ Hv Hw), (mv_undir _ _ _ _ Hmv (proj1 Hw)), (mv_verts _ _ _ _ Hmv (proj1 Hw)).
      pose proof (eo_in _ _ _ (vm_eok _ _ _ Hvm) w Hw) as He. unfold m_epair in He.
      destruct (im_get (m_edges m) (uv F w)) as [ue|] eqn:Eue; [|done]. cbn [fmap option_fmap option_map] in He.
      apply (inj Some) in He.
      rewrite !andb_true_iff. split; [split; [split|]|].
      + apply bool_decide_eq_true. unfold list4. cbn [q0 q1 q2 q3]. by rewrite T1, T2, T3, Eq3.
      + by apply bool_decide_eq_true.
      + apply bool_decide_eq_true. cbn [q0 q1]. rewrite He. rewrite sorted_2_comm.
        destruct (vv_distinct _ _ _ Hv Hw) as (N1 & _). unfold sorted_2.
        destruct (N.ltb_spec (q1 (vv F w)) (q0 (vv F w))) as [H|H];
          [destruct (N.ltb_spec (q0 (vv F w)) (q1 (vv F w)))|destruct (N.ltb_spec (q1 (vv F w)) (q0 (vv F w)))]; try done; lia.
      + rewrite (mv_tri _ _ _ _ Hmv (proj1 Hw)). apply orb_true_iff.
        destruct (Nat.ltb_spec (w_edge w) 4) as [Hl|]; [|by left].
        destruct (m_track m) eqn:Et; [right|by left]. apply bool_decide_eq_true.
        exists w. apply (vm_tm _ _ _ Hvm Et). split; [apply Hw|done].
  Qed.

  Lemma integrity_holds ori m : mesh_ok m →
    (∀ v, is_Some (im_get (m_verts m) v) → attached m v) →
    tet_get m invalid_id = None →
    (∀ f, ori = Some f → ∀ id t, tet_get m id = Some t → f (t_vs t) = true) →
    assert_integrity ori m = true.
  Proof.
    intros Hok Hatt Hinv Hori. unfold assert_integrity. rewrite !andb_true_iff.
    split; [split; [split; [split; [split|]|]|]|].
    - apply forallb_intro. intros [v vt] H. apply elem_of_im_iter in H; [|apply Hok].
      destruct (ok_vref _ Hok v vt H) as [[[t Ht] _] Hf]; [apply Hatt; by exists vt|].
      unfold ai_vertex. cbn [fst snd]. rewrite Hf, N.eqb_refl, andb_true_r.
      destruct (N.eqb_spec (w_tet (v_tet vt)) invalid_id) as [E|]; [|done]. rewrite E in Ht. congruence.
    - apply forallb_intro. intros [e ue] H. apply elem_of_im_iter in H; [|apply Hok].
      pose proof (ok_edge_sorted _ Hok e ue H) as Hs. unfold ai_edge. cbn [snd].
      apply andb_true_iff. split; [|by apply N.ltb_lt].
      apply negb_true_iff, N.eqb_neq. lia.
    - by apply ai_edges_dup.
    - by apply ai_edges_used_ok.
    - unfold ai_trimap. destruct (m_track m) eqn:Et; [|done]. cbn [negb orb].
      apply forallb_intro. intros [k w] H%elem_of_map_to_list.
      apply (ok_trimap _ Hok Et) in H as (Hw & _ & t & E1 & E2). cbn [fst snd]. rewrite E1.
      by apply bool_decide_eq_true.
    - apply forallb_intro. intros [id t] H. apply elem_of_im_iter in H; [|apply Hok].
      apply ai_tet_ok; [done|done|]. intros f Hf. by eapply Hori.
  Qed.
End integrity.
