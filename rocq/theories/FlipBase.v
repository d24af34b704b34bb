(** Shared ingredients of the flip proofs. *)
From stdpp Require Import base numbers list gmap option relations.
From Coq Require Import NArith ZArith ZifyN ZifyNat ZifyBool Lia.
From Verif Require Import IdMapModel IdMapSpec IdMapProofs IdMapMore WalkerModel WalkerSpec WalkerProofs SortProofs
  MeshModel WalkerMore MeshSpec MeshViews Surgery MeshLink MeshRun.
Local Open Scope nat_scope.

Ltac inu := rewrite ?elem_of_union, ?elem_of_singleton; tauto.
Ltac inu_in H := rewrite ?elem_of_union, ?elem_of_singleton in H; tauto.

Lemma elem_list4 (a : arr4 N) x : x ∈ list4 a ↔ x = q0 a ∨ x = q1 a ∨ x = q2 a ∨ x = q3 a.
Proof. unfold list4. rewrite !elem_of_cons, elem_of_nil. tauto. Qed.
Lemma not_elem_list4 (a : arr4 N) x : x ∉ list4 a ↔ x ≠ q0 a ∧ x ≠ q1 a ∧ x ≠ q2 a ∧ x ≠ q3 a.
Proof. rewrite elem_list4. tauto. Qed.

Section base.
  Context {V T : Type}.
  Implicit Types (m : mesh V T) (F G : N → tet T) (w u : walker) (L O K : gset N) (id : N).

  (** The vertex table after writing the references [l]. *)
  Record vrel (vs vs' : idmap (vertex V)) (l : list (N * walker)) : Prop := VRel {
    vr_wf : im_wf vs';
    vr_npi : im_npi vs' = im_npi vs;
    vr_ref x : v_tet <$> im_get vs' x = last_ref l x ∘ v_tet <$> im_get vs x;
    vr_rest x : (λ vt, (v_flags vt, v_pos vt, v_val vt)) <$> im_get vs' x =
                (λ vt, (v_flags vt, v_pos vt, v_val vt)) <$> im_get vs x }.
  Lemma vert_refs_vrel m l : im_wf (m_verts m) →
    vrel (m_verts m) (m_verts (vert_refs m l)) l ∧ m_tets (vert_refs m l) = m_tets m ∧
    m_ghost_flags (vert_refs m l) = m_ghost_flags m ∧ m_edges (vert_refs m l) = m_edges m ∧
    m_trimap (vert_refs m l) = m_trimap m ∧ m_track (vert_refs m l) = m_track m ∧
    m_center (vert_refs m l) = m_center m.
  Proof.
    intros Hwf. destruct (vert_refs_st l m Hwf) as (A1&A2&A3&A4&A5&A6&A7&A8&A9&A10).
    split; [|done]. split; [done|done| |done].
    intros x. specialize (A9 x). unfold m_vref in A9. rewrite A9. by destruct (im_get (m_verts m) x).
  Qed.
  Lemma vrel_is_Some vs vs' l x : vrel vs vs' l → is_Some (im_get vs' x) ↔ is_Some (im_get vs x).
  Proof.
    intros H. pose proof (vr_rest _ _ _ H x) as E.
    destruct (im_get vs' x), (im_get vs x); try done; split; eauto.
  Qed.
  Lemma vrel_trans vs1 vs2 vs3 l1 l2 : vrel vs1 vs2 l1 → vrel vs2 vs3 l2 → vrel vs1 vs3 (l1 ++ l2).
  Proof.
    intros [A1 A2 A3 A4] [B1 B2 B3 B4]. split; [done|congruence| |congruence].
    intros x. rewrite B3. specialize (A3 x). destruct (im_get vs2 x) as [v2|] eqn:E2, (im_get vs1 x) as [v1|] eqn:E1; try done.
    cbn in *. injection A3 as A3. f_equal. rewrite A3. clear. generalize (v_tet v1) as w.
    induction l1 as [|[v w'] l1 IH]; intros w; [done|]. cbn. apply IH.
  Qed.

  Lemma fupd_ne G i t x : x ≠ i → fupd G i t x = G x.
  Proof. intros H. unfold fupd. by rewrite decide_False. Qed.

  (** Faces of the new tets. *)
  Definition sg_inner O K' F F' u : Prop :=
    vd K' (av F' u) ∧ twist (vv F' u) (vv F' (av F' u)) ∧ lv F' (av F' u) = lv F' u ∧
    ∀ w, vd O w → tri3 (vv F w) ≠ tri3 (vv F' u).
  Definition sg_outer O K F F' u : Prop :=
    vd O (av F' u) ∧ w_tet (av F (av F' u)) ∈ K ∧ av F' (av F' u) = u.

  Lemma av_tet_nfe F x : w_edge x < 12 → w_tet (av F (to_nfe x)) = w_tet (av F x).
  Proof.
    intros Hx. unfold av. rewrite !rot_tet. unfold to_nfe. cbn [w_tet w_edge]. by rewrite nfe_mod4.
  Qed.
  Lemma av_tet_pfe F x : w_edge x < 12 → w_tet (av F (to_pfe x)) = w_tet (av F x).
  Proof.
    intros Hx. unfold av. rewrite !rot_tet. unfold to_pfe. cbn [w_tet w_edge]. by rewrite pfe_mod4.
  Qed.

  Lemma sg_faces O K K' F F' :
    (∀ id, id ∈ O → oppok F' id) → (∀ id, id ∈ K' → oppok F' id) →
    (∀ id i, id ∈ K' → i < 4 → sg_inner O K' F F' (Walker id i) ∨ sg_outer O K F F' (Walker id i)) →
    ∀ u, vd K' u → sg_inner O K' F F' u ∨ sg_outer O K F F' u.
  Proof.
    intros HO HK' Hf [id e] [Hid He]. cbn in Hid, He.
    apply (face_same (λ e, sg_inner O K' F F' (Walker id e) ∨ sg_outer O K F F' (Walker id e)))
      with (e := e mod 4); [|pose proof (Nat.mod_upper_bound e 4); lia|done|by rewrite Nat.mod_mod|
        apply Hf; [done|by apply Nat.mod_upper_bound]].
    clear e He. intros e He H.
    change (Walker id ((e + 4) mod 12)) with (to_nfe (Walker id e)).
    set (u := Walker id e) in *.
    assert (w_edge u < 12) as Hu by done. assert (oppok F' (w_tet u)) as Hop by by apply HK'.
    destruct H as [(H1 & H2 & H3 & H4)|(H1 & H2 & H3)]; [left|right].
    - unfold sg_inner. rewrite av_nfe by done. split; [by apply vd_pfe|].
      split; [apply twist_nfe; [done|apply H1|done]|]. split.
      { rewrite lv_pfe by apply H1. by rewrite lv_nfe. }
      intros w Hw E. apply (H4 (to_pfe w)); [by apply vd_pfe|].
      rewrite vv_nfe in E by done. rewrite vv_pfe by apply Hw. unfold tri3 in *. cbn in *. congruence.
    - unfold sg_outer. rewrite av_nfe by done. split; [by apply vd_pfe|]. split.
      { by rewrite av_tet_pfe by apply H1. }
      rewrite av_pfe; [by rewrite H3|apply H1|]. apply HO, H1.
  Qed.

  Definition sg_bdP K' F F' r : Prop :=
    vd K' (av F' r) ∧ twist (vv F r) (vv F' (av F' r)) ∧ lv F' (av F' r) = lv F r.

  Lemma sg_bdP_nfe O K' F F' r : oppok F' (w_tet r) → vd O r →
    sg_bdP K' F F' r → sg_bdP K' F F' (to_nfe r).
  Proof.
    intros Hop Hr (H1 & H2 & H3). unfold sg_bdP. rewrite av_nfe by (done || apply Hr).
    split; [by apply vd_pfe|]. split; [apply twist_nfe; [apply Hr|apply H1|done]|].
    rewrite lv_pfe by apply H1. by rewrite lv_nfe by apply Hr.
  Qed.

  (** Boundary condition, checked from the inside for one position of each face of [K]. *)
  Lemma sg_bd_rot O K F K' F' : O ## K → vok (O ∪ K) F → (∀ id, id ∈ O → oppok F' id) →
    ∀ y, vd K y → (w_tet (av F y) ∈ O → sg_bdP K' F F' (av F y)) →
      (w_tet (av F (to_nfe y)) ∈ O → sg_bdP K' F F' (av F (to_nfe y))).
  Proof.
    intros HD Hok Hop y Hy Hy2. rewrite av_tet_nfe by apply Hy. intros Hin. specialize (Hy2 Hin).
    assert (vd (O ∪ K) y) as Hyv by (split; [apply elem_of_union_r, Hy|apply Hy]).
    destruct (vo_adj _ _ Hok y Hyv) as [Hz _].
    rewrite av_nfe; [|apply Hy|]. 2:{ apply (vok_oppok _ _ _ Hok), Hyv. }
    destruct Hz as [_ Hz].
    rewrite <- nfe_nfe by done.
    apply (sg_bdP_nfe O); [apply Hop; exact Hin|split; [done|apply to_nfe_ok]|].
    apply (sg_bdP_nfe O); [apply Hop; exact Hin|split; [done|exact Hz]|exact Hy2].
  Qed.
  Lemma sg_bd_idx O K K' F F' : O ## K → vok (O ∪ K) F → (∀ id, id ∈ O → oppok F' id) →
    (∀ id i, id ∈ K → i < 4 → w_tet (av F (Walker id i)) ∈ O → sg_bdP K' F F' (av F (Walker id i))) →
    ∀ r, vd O r → w_tet (av F r) ∈ K → sg_bdP K' F F' r.
  Proof.
    intros HD Hok Hop Hf r Hr HK.
    assert (vd (O ∪ K) r) as Hr' by (split; [apply elem_of_union_l, Hr|apply Hr]).
    destruct (vo_adj _ _ Hok r Hr') as [Hu _].
    rewrite <- (av_av _ _ _ Hok Hr'). rewrite <- (av_av _ _ _ Hok Hr') in Hr.
    destruct (av F r) as [id e]. cbn in HK. clear Hr' r.
    apply (face_same (λ e, w_tet (av F (Walker id e)) ∈ O → sg_bdP K' F F' (av F (Walker id e))))
      with (e := e mod 4); [|pose proof (Nat.mod_upper_bound e 4); lia|apply Hu|by rewrite Nat.mod_mod| |].
    - intros e' He'. apply (sg_bd_rot O K F K' F' HD Hok Hop (Walker id e')). by split.
    - apply Hf; [done|by apply Nat.mod_upper_bound].
    - apply Hr.
  Qed.
  Lemma sg_bd_faces O K K' F F' : O ## K → vok (O ∪ K) F → (∀ id, id ∈ O → oppok F' id) →
    (∀ id, id ∈ K → ∃ x, w_tet x = id ∧ w_edge x < 12 ∧
      (∀ p, p ∈ [P0123; P1032; P0231; P2130] → w_tet (av F (to_perm x p)) ∈ O →
        sg_bdP K' F F' (av F (to_perm x p)))) →
    ∀ r, vd O r → w_tet (av F r) ∈ K → sg_bdP K' F F' r.
  Proof.
    intros HD Hok Hop Hf. apply (sg_bd_idx O K); [done..|].
    intros id i Hid Hi. destruct (Hf _ Hid) as (x & Hx1 & Hx2 & Hx3).
    apply (face_cases (λ y, w_tet y = w_tet x ∧ (w_tet (av F y) ∈ O → sg_bdP K' F F' (av F y))) x Hx2).
    - intros y Hy [Hy1 Hy2]. split; [done|]. apply (sg_bd_rot O K F K' F' HD Hok Hop y); [|done].
      split; [congruence|done].
    - split; [done|]. intros Hin. specialize (Hx3 P0123). rewrite to_perm_id in Hx3 by done.
      apply Hx3; [by repeat constructor|done].
    - split; [done|]. apply (Hx3 P1032). by repeat constructor.
    - split; [done|]. apply (Hx3 P0231). by repeat constructor.
    - split; [done|]. apply (Hx3 P2130). by repeat constructor.
    - cbn. congruence.
    - cbn. lia.
  Qed.

  (** Links outside the region do not change. *)
  Lemma sg_out_relinked O K F G F' l : relinked F G l →
    (∀ id, id ∈ O → F' id = G id) → O ## K →
    (∀ a u, (a, u) ∈ l → w_tet (av F a) ∈ K) →
    ∀ w, vd O w → w_tet (av F w) ∈ O → av F' w = av F w.
  Proof.
    intros Hrl HF HD Hl w Hw HO. unfold av at 1. rewrite HF by apply Hw. change (av G w = av F w).
    apply (rl_out _ _ _ Hrl); [apply Hw|]. intros a u Hin [E1 E2].
    apply (HD (w_tet (av F w))); [done|]. specialize (Hl a u Hin).
    unfold av in Hl |- *. rewrite rot_tet in Hl |- *. by rewrite <- E1, <- E2.
  Qed.

  (** ** Edge table. *)
  Definition edge_slots (vs : arr4 N) (es : arr6 N) (E : N → option (N * N)) : Prop :=
    E (s0 es) = Some (sorted_2 (q2 vs, q3 vs)) ∧ E (s1 es) = Some (sorted_2 (q0 vs, q1 vs)) ∧
    E (s2 es) = Some (sorted_2 (q1 vs, q2 vs)) ∧ E (s3 es) = Some (sorted_2 (q0 vs, q3 vs)) ∧
    E (s4 es) = Some (sorted_2 (q1 vs, q3 vs)) ∧ E (s5 es) = Some (sorted_2 (q0 vs, q2 vs)).
  Lemma sorted_2_comm a b : sorted_2 (a, b) = sorted_2 (b, a).
  Proof. unfold sorted_2. destruct (N.ltb_spec b a), (N.ltb_spec a b); f_equal; lia. Qed.
  Lemma edge_slots_in vs es E : edge_slots vs es E ↔
    (∀ e, e < 12 → E (get6 es (undir_idx e)) = Some (sorted_2 (q0 (verts_at vs e), q1 (verts_at vs e)))).
  Proof.
    destruct vs as [p q r s], es as [x0 x1 x2 x3 x4 x5]. unfold edge_slots. cbn. split.
    - intros (H0&H1&H2&H3&H4&H5) e He.
      case12 e He; cbn; rewrite ?H0, ?H1, ?H2, ?H3, ?H4, ?H5; try done; f_equal; apply sorted_2_comm.
    - intros H.
      pose proof (H 0 ltac:(lia)) as A0. pose proof (H 3 ltac:(lia)) as A3.
      pose proof (H 7 ltac:(lia)) as A7. pose proof (H 11 ltac:(lia)) as A11.
      pose proof (H 1 ltac:(lia)) as A1. pose proof (H 2 ltac:(lia)) as A2.
      pose proof (H 4 ltac:(lia)) as B4. pose proof (H 5 ltac:(lia)) as B5. pose proof (H 6 ltac:(lia)) as B6.
      pose proof (H 8 ltac:(lia)) as B8. pose proof (H 9 ltac:(lia)) as B9. pose proof (H 10 ltac:(lia)) as B10.
      cbn in *. rewrite ?(sorted_2_comm s r), ?(sorted_2_comm q p), ?(sorted_2_comm r q), ?(sorted_2_comm s p),
        ?(sorted_2_comm s q), ?(sorted_2_comm r p) in *. repeat split; assumption.
  Qed.

  Lemma sorted_2_lt a b x y : a ≠ b → sorted_2 (a, b) = (x, y) → (x < y)%N.
  Proof. unfold sorted_2. destruct (N.ltb_spec b a); intros Hab [= <- <-]; lia. Qed.

  (** Edge entries join two different vertices of some tet, in increasing order. *)
  Lemma eok_used L F E e a b : vok L F → eok L F E → E e = Some (a, b) →
    ∃ id, id ∈ L ∧ a ∈ list4 (t_vs (F id)) ∧ b ∈ list4 (t_vs (F id)) ∧ a ≠ b.
  Proof.
    intros Hok Heo He. destruct (eo_used _ _ _ Heo e a b He) as (w & Hw & <- & <-).
    exists (w_tet w). split; [apply Hw|]. rewrite <- !(vv_elem F w) by apply Hw.
    pose proof (vv_nodup F w (proj2 Hw) (vo_nodup _ _ Hok _ (proj1 Hw))) as Hnd.
    destruct (vv F w) as [p q r s]. unfold list4 in *. cbn in *. apply NoDup4 in Hnd.
    rewrite !elem_of_cons. tauto.
  Qed.
  Lemma eok_intro L F E :
    (∀ id, id ∈ L → edge_slots (t_vs (F id)) (t_edges (F id)) E) →
    (∀ e e' p, E e = Some p → E e' = Some p → e = e') →
    (∀ e a b, E e = Some (a, b) →
      ∃ id, id ∈ L ∧ a ∈ list4 (t_vs (F id)) ∧ b ∈ list4 (t_vs (F id)) ∧ a ≠ b) →
    (∀ e a b, E e = Some (a, b) → (a < b)%N) →
    eok L F E.
  Proof.
    intros H1 H2 H3 H4. split; [|done| |done].
    - intros w Hw. unfold uv, vv. apply edge_slots_in; [|apply Hw]. apply H1, Hw.
    - intros e a b He. destruct (H3 e a b He) as (id & Hid & Ha & Hb & Hab).
      destruct (pair_of_tet F id a b Ha Hb Hab) as (w & E1 & Hw & E2 & E3).
      exists w. split; [by split; [rewrite E1|]|done].
  Qed.
  Lemma eok_slots L F E id : eok L F E → id ∈ L → edge_slots (t_vs (F id)) (t_edges (F id)) E.
  Proof.
    intros Heo Hid. apply edge_slots_in. intros e He.
    apply (eo_in _ _ _ Heo (Walker id e)). by split.
  Qed.

  (** Vertex references after a replacement. *)
  Lemma vrok_surgery O K K' F F' R R' :
    vok (O ∪ K) F →
    (∀ id, id ∈ O → t_vs (F' id) = t_vs (F id)) →
    vrok (O ∪ K) F R →
    (∀ v w, R' v = Some w → (∃ id, id ∈ K' ∧ v ∈ list4 (t_vs (F' id))) → vd (O ∪ K') w ∧ q0 (vv F' w) = v) →
    (∀ v w, R' v = Some w → (∀ id, id ∈ K → v ∉ list4 (t_vs (F id))) →
       (∀ id, id ∈ K' → v ∉ list4 (t_vs (F' id))) → R v = Some w) →
    (∀ v id, id ∈ K → v ∈ list4 (t_vs (F id)) →
       (∃ id, id ∈ K' ∧ v ∈ list4 (t_vs (F' id))) ∨ (∀ id1, id1 ∈ O → v ∉ list4 (t_vs (F id1)))) →
    vrok (O ∪ K') F' R'.
  Proof.
    intros Hok Hvs HR Hin Hout HX v w Hv (x & Hx & Ex).
    destruct (decide (set_Exists (λ id, v ∈ list4 (t_vs (F' id))) K')) as [(id & Hid & Hm)|Hn].
    { apply Hin; [done|]. by exists id. }
    assert (∀ id, id ∈ K' → v ∉ list4 (t_vs (F' id))) as Hn'.
    { intros id Hid Hm. apply Hn. by exists id. }
    assert (v ∈ list4 (t_vs (F' (w_tet x)))) as Hvx.
    { rewrite <- (vv_elem F' x) by apply Hx. rewrite <- Ex. unfold list4. destruct (vv F' x). cbn.
      rewrite elem_of_cons. by left. }
    destruct Hx as [Hx1 Hx2]. apply elem_of_union in Hx1 as [Hx1|Hx1]; [|by destruct (Hn' _ Hx1)].
    assert (v ∈ list4 (t_vs (F (w_tet x)))) as Hvx' by by rewrite <- Hvs.
    assert (∀ id, id ∈ K → v ∉ list4 (t_vs (F id))) as HnK.
    { intros id Hid Hm. destruct (HX v id Hid Hm) as [(id' & Hid' & Hm')|H].
      - by apply (Hn' id').
      - by apply (H (w_tet x)). }
    destruct (HR v w) as [[Hw1 Hw2] Hw3].
    { by apply Hout. }
    { exists x. split; [split; [by apply elem_of_union_l|done]|]. rewrite <- Ex. unfold vv. by rewrite Hvs. }
    assert (v ∈ list4 (t_vs (F (w_tet w)))) as Hvw.
    { rewrite <- (vv_elem F w) by done. rewrite <- Hw3. unfold list4. destruct (vv F w). cbn.
      rewrite elem_of_cons. by left. }
    apply elem_of_union in Hw1 as [Hw1|Hw1]; [|by destruct (HnK _ Hw1)].
    split; [split; [by apply elem_of_union_l|done]|]. rewrite <- Hw3. unfold vv. by rewrite Hvs.
  Qed.

  Lemma last_ref_out l x w : x ∉ l.*1 → last_ref l x w = w.
  Proof.
    revert w. induction l as [|[v u] l IH]; intros w; [done|]. cbn. rewrite not_elem_of_cons.
    intros [H1 H2]. rewrite decide_False by done. by apply IH.
  Qed.

  (** The triangle map after removing the keys of [lK] and adding those of [lK']. *)
  Definition tmrel F (lK : list N) F' (lK' : list N) (tm tm' : gmap (N * N * N) walker) : Prop :=
    ∃ tm1 : gmap (N * N * N) walker,
      (∀ k, (k ∈ tkeys F lK → tm1 !! k = None) ∧ (k ∉ tkeys F lK → tm1 !! k = tm !! k)) ∧
      (∀ k, k ∉ tkeys F' lK' → tm' !! k = tm1 !! k) ∧
      (∀ k, k ∈ tkeys F' lK' → ∃ id i, id ∈ lK' ∧ i < 4 ∧ tm' !! k = Some (Walker id i) ∧ k = tkey F' id i).
  Lemma tmrel_ok O K K' F F' tm tm' lK lK' :
    vok (O ∪ K) F → vok (O ∪ K') F' → O ## K → O ## K' →
    (∀ id, id ∈ O → t_vs (F' id) = t_vs (F id)) →
    (∀ id, id ∈ lK ↔ id ∈ K) → (∀ id, id ∈ lK' ↔ id ∈ K') →
    tmok (O ∪ K) F tm → tmrel F lK F' lK' tm tm' → tmok (O ∪ K') F' tm'.
  Proof.
    intros H1 H2 H3 H4 H5 H6 H7 H8 (tm1 & A & B & C).
    exact (tm_surgery O K K' F F' tm tm1 tm' lK lK' H1 H2 H3 H4 H5 H6 H7 H8 A B C).
  Qed.
End base.
