(** The stages of a vertex insertion put together, on the tables. *)
From stdpp Require Import base numbers list gmap option relations.
From Coq Require Import NArith ZArith ZifyN ZifyNat ZifyBool Lia.
From Verif Require Import IdMapModel IdMapSpec IdMapProofs WalkerModel WalkerSpec WalkerProofs SortProofs UtilSpec UtilProofs
  MeshModel WalkerMore MeshOps MeshSpec MeshViews Surgery MeshLink MeshRun FlipBase FlipRun IterModel IterProofs CavSpec
  InsModel InsTopo InsStep InsOwn InsCone InsSpokes InsCross.
Local Open Scope nat_scope.

Section run.
  Context {V T : Type}.
  Implicit Types (w u r x y z : walker) (e a : N).
  Context (m : mesh V T) (Lm : gset N) (F : N → tet T) (E : list N) (B : list walker) (v : N).
  Notation K := (list_to_set E : gset N).
  Notation O := (Lm ∖ (list_to_set E : gset N)).
  Notation bw := (bw O K F).
  Notation mate := (mate O K F).
  Notation Ed := (im_get (m_edges m)).
  Notation Vt := (im_get (m_verts m)).
  Context (Hm : vmesh m Lm F) (HEn : NoDup E) (HEL : ∀ id, id ∈ E → id ∈ Lm).
  Context (HB : ∀ w, w ∈ B → bw w) (HBn : NoDup (side <$> B)) (HBa : ∀ u, bw u → side u ∈ side <$> B).
  Context (Sedge : ∀ u u', bw u → bw u' → pair2 (vv F u) = pair2 (vv F u') → u = u').
  Context (Sfan : ∀ u u', bw u → bw u' → q0 (vv F u) = q0 (vv F u') → rtsc (bturn O K F) u u').
  Context (Sconn : ∀ u u', bw u → bw u' → rtsc (λ x y, bturn O K F x y ∨ (bw x ∧ y = to_nfe x)) u u').
  Context (It : ∀ id, id ∈ Lm → f_boundary (t_flags (F id)) = false ∧ f_dup (t_flags (F id)) = false).
  Context (Ie : ∀ e ue, Ed e = Some ue → ue_boundary ue = false ∧ w_tet (ue_bw ue) = invalid_id).
  Context (Iv : ∀ (x : N) f, fl Vt (m_ghost_flags m) x = Some f → vf_edge_added f = false).
  Context (Hv : ∃ vt, Vt v = Some vt ∧ w_tet (v_tet vt) = invalid_id).
  Context (Hvn : ∀ w, vd Lm w → q0 (vv F w) ≠ v).
  Context (Rt : (im_npi (m_tets m) + N.of_nat (length B) ≤ invalid_id)%N)
    (Re : (im_npi (m_edges m) + N.of_nat (3 * length B) ≤ u32_mod)%N).

  Notation st := (st (m_track m) (m_center m) (im_npi (m_verts m))).
  Notation gf := (m_ghost_flags m).

  Lemma OK_L id : id ∈ O ∪ K ↔ id ∈ Lm.
  Proof.
    rewrite elem_of_union, elem_of_difference, elem_of_list_to_set. split; [intros [[? ?]|?]; auto|].
    intros H. destruct (decide (id ∈ E)); auto.
  Qed.
  Lemma OK_eq : O ∪ K = Lm.
  Proof. apply set_eq. exact OK_L. Qed.
  Lemma okF : vok (O ∪ K) F.
  Proof. rewrite OK_eq. apply Hm. Qed.
  Lemma disj : O ## K.
  Proof. set_solver. Qed.
  Lemma bw_L u : bw u → vd Lm u.
  Proof. intros H. rewrite <- OK_eq. by apply (cr_bw O K F). Qed.
  Lemma matesF u : bw u → ∃ u', mate u u'.
  Proof. apply mate_ex; [apply okF|apply disj]. Qed.
  Lemma closedF : closed_surface O K F.
  Proof. split; [exact Sedge|exact matesF|exact Sfan|exact Sconn]. Qed.
  Lemma dartsB u : u ∈ darts B ↔ bw u.
  Proof. apply dart_bw; done. Qed.
  Lemma eokF w : vd Lm w → ∃ ue, Ed (uv F w) = Some ue ∧ ue_vs ue = sorted_2 (q0 (vv F w), q1 (vv F w)).
  Proof.
    intros Hw. pose proof (eo_in _ _ _ (vm_eok _ _ _ Hm) w Hw) as H. unfold m_epair in H. destruct (Ed (uv F w)) as [ue|]; [|done].
    injection H as H. eauto.
  Qed.
  Lemma sorted_2_eq a b a' b' : sorted_2 (a, b) = sorted_2 (a', b') → (a = a' ∧ b = b') ∨ (a = b' ∧ b = a').
  Proof. unfold sorted_2. destruct (N.ltb_spec b a), (N.ltb_spec b' a'); intros [= -> ->]; auto. Qed.
  Lemma uv_pair w w' : vd Lm w → vd Lm w' → uv F w = uv F w' → pair2 (vv F w) = pair2 (vv F w') ∨ pair2 (vv F w) = (q1 (vv F w'), q0 (vv F w')).
  Proof.
    intros Hw Hw' H. destruct (eokF w Hw) as (ue & E1 & E2), (eokF w' Hw') as (ue' & E1' & E2'). rewrite H in E1.
    assert (ue = ue') as -> by congruence. rewrite E2 in E2'. unfold pair2. apply sorted_2_eq in E2' as [[-> ->]|[-> ->]]; auto.
  Qed.
  Lemma pair_uv w w' : vd Lm w → vd Lm w' → sorted_2 (pair2 (vv F w)) = sorted_2 (pair2 (vv F w')) → uv F w = uv F w'.
  Proof.
    intros Hw Hw' H. apply (eo_inj _ _ _ (vm_eok _ _ _ Hm) _ _ (sorted_2 (pair2 (vv F w)))).
    - by apply (eo_in _ _ _ (vm_eok _ _ _ Hm)).
    - rewrite H. by apply (eo_in _ _ _ (vm_eok _ _ _ Hm)).
  Qed.

  (** ** Marking and removing. *)
  Definition F1 : N → tet T := markF F (w_tet <$> B).
  Definition Ed2 : N → option uedge := purgeE (markE Ed (uv F <$> darts B)) (tedges F1 E).
  Notation Kb := (list_to_set (w_tet <$> B) : gset N).
  Lemma B_E w : w ∈ B → w_tet w ∈ E.
  Proof. intros H. apply HB in H as [[H _] _]. by apply elem_of_list_to_set in H. Qed.
  Lemma F1_O id : id ∉ E → F1 id = F id.
  Proof.
    intros H. unfold F1, markF. rewrite decide_False; [done|]. intros (w & -> & Hw)%elem_of_list_fmap. by apply H, B_E.
  Qed.
  Lemma F1_sim id : sim (F id) (F1 id).
  Proof. unfold F1, markF. destruct (decide _); repeat split. Qed.
  Lemma F1_dup id : f_dup (t_flags (F1 id)) = f_dup (t_flags (F id)).
  Proof. unfold F1, markF. by destruct (decide _). Qed.
  Lemma unmarked_F1 id : id ∈ unmarked F1 E ↔ id ∈ E ∧ id ∉ w_tet <$> B.
  Proof.
    unfold unmarked. rewrite elem_of_list_filter. unfold F1, markF. split.
    - intros [H1 H2]. split; [done|]. intros H. rewrite decide_True in H1 by done. done.
    - intros [H1 H2]. split; [|done]. rewrite decide_False by done. by apply It, HEL.
  Qed.

  Lemma tedges_spec e : e ∈ tedges F1 E ↔ ∃ x, vd K x ∧ uv F x = e.
  Proof.
    unfold tedges. rewrite elem_of_list_bind. split.
    - intros (id & He & Hid). assert (t_edges (F1 id) = t_edges (F id)) as Q by apply F1_sim. rewrite Q in He.
      unfold list6 in He. rewrite !elem_of_cons, elem_of_nil in He.
      assert (∀ i, i < 12 → uv F (Walker id i) = e → ∃ x, vd K x ∧ uv F x = e) as Hx.
      { intros i Hi Hu. exists (Walker id i). split; [|done]. split; [by apply elem_of_list_to_set|done]. }
      destruct He as [->|[->|[->|[->|[->|[->|[]]]]]]]; [apply (Hx 0)|apply (Hx 2)|apply (Hx 4)|apply (Hx 5)|apply (Hx 8)|apply (Hx 9)]; first [lia|done].
    - intros (x & [Hx%elem_of_list_to_set Hx'] & <-). exists (w_tet x). split; [|done]. assert (t_edges (F1 (w_tet x)) = t_edges (F (w_tet x))) as -> by apply F1_sim.
      unfold uv. destruct x as [t i]. cbn [w_tet w_edge] in *. unfold list6. rewrite !elem_of_cons. case12 i Hx'; cbn; tauto.
  Qed.

  (** The edges that stay are those of the tets that stay. *)
  Lemma kept_edge w : vd O w → is_Some (Ed2 (uv F w)).
  Proof.
    intros Hw. assert (vd Lm w) as HwL. { split; [|apply Hw]. apply OK_L, elem_of_union_l, Hw. }
    destruct (eokF w HwL) as (ue & Eu & _). unfold Ed2, purgeE. destruct (decide (uv F w ∈ tedges F1 E)) as [Hin|Hin].
    - apply tedges_spec in Hin as (x & Hx & Ex). assert (vd Lm x) as HxL. { split; [|apply Hx]. apply OK_L, elem_of_union_r, Hx. }
      unfold markE at 1 2. destruct (decide (uv F w ∈ uv F <$> darts B)) as [Hd|Hd]; [rewrite Eu; cbn; eauto|]. exfalso.
      assert (∀ y, vd Lm y → w_tet y ∈ K → pair2 (vv F w) = pair2 (vv F y) → False) as Key.
      { intros y Hy HyK Ep. apply (ring_cross O K F okF disj w y); [by rewrite OK_eq|by rewrite OK_eq| |done|done|].
        - intros H. pose proof (proj1 Hw). set_solver.
        - intros (u & Hu & Eu'). apply Hd. apply elem_of_list_fmap. exists u. split; [|by apply dartsB].
          apply pair_uv; [done|by apply bw_L|]. congruence. }
      destruct (uv_pair w x HwL HxL (eq_sym Ex)) as [Ep|Ep].
      + apply (Key x); [done|apply Hx|done].
      + apply (Key (to_twin_edge x)); [by apply vd_twin|apply Hx|]. rewrite Ep. unfold pair2. by rewrite vv_twin by apply Hx.
    - unfold markE. rewrite Eu. destruct (decide _); cbn; eauto.
  Qed.
  Lemma Ed2_old e ue : Ed2 e = Some ue → ∃ ue0, Ed e = Some ue0 ∧ ue_vs ue = ue_vs ue0 ∧ ue_locked ue = ue_locked ue0 ∧ ue_bw ue = ue_bw ue0.
  Proof.
    unfold Ed2, purgeE, markE. destruct (Ed e) as [ue0|].
    - intros H. exists ue0. split; [done|]. destruct (decide (e ∈ tedges F1 E)), (decide (e ∈ uv F <$> darts B)); cbn in H; repeat case_match; simplify_eq; done.
    - intros H. by destruct (decide (e ∈ tedges F1 E)), (decide (e ∈ uv F <$> darts B)).
  Qed.
  Lemma Ed2_b e ue : Ed2 e = Some ue → ue_boundary ue = true ↔ e ∈ uv F <$> darts B.
  Proof.
    unfold Ed2, purgeE, markE. destruct (Ed e) as [ue0|] eqn:E0.
    - destruct (Ie e ue0 E0) as [I1 _]. intros H. destruct (decide (e ∈ uv F <$> darts B)) as [Hin|Hin].
      + destruct (decide (e ∈ tedges F1 E)); cbn in H; simplify_eq; done.
      + destruct (decide (e ∈ tedges F1 E)); cbn in H; [rewrite I1 in H; done|]. simplify_eq. rewrite I1. split; done.
    - intros H. by destruct (decide (e ∈ tedges F1 E)), (decide (e ∈ uv F <$> darts B)).
  Qed.
  Lemma Ed2_out e ue a b : Ed2 e = Some ue → ue_vs ue = (a, b) → ∃ w, vd O w ∧ uv F w = e ∧ pair2 (vv F w) = (a, b).
  Proof.
    intros H Ep. destruct (Ed2_old e ue H) as (ue0 & E0 & Ev & _).
    destruct (eo_used _ _ _ (vm_eok _ _ _ Hm) e a b) as (w & Hw & <- & <-). { unfold m_epair. rewrite E0. cbn. congruence. }
    assert (uv F w = e) as Ew.
    { apply (eo_inj _ _ _ (vm_eok _ _ _ Hm) _ _ (sorted_2 (pair2 (vv F w)))); [by apply (eo_in _ _ _ (vm_eok _ _ _ Hm))|].
      unfold m_epair. rewrite E0. cbn. f_equal. rewrite <- Ev, Ep. unfold pair2, sorted_2.
      pose proof (eo_sorted _ _ _ (vm_eok _ _ _ Hm) e (q0 (vv F w)) (q1 (vv F w))) as Hs. unfold m_epair in Hs. rewrite E0 in Hs. cbn in Hs.
      rewrite <- Ev, Ep in Hs. specialize (Hs eq_refl). destruct (N.ltb_spec (q1 (vv F w)) (q0 (vv F w))) as [Hlt|Hlt]; [exfalso; revert Hs Hlt; clear; intros; lia|reflexivity]. }
    destruct (decide (w_tet w ∈ K)) as [HK|HK].
    - assert (e ∈ uv F <$> darts B) as Hin.
      { destruct (decide (e ∈ uv F <$> darts B)) as [|Hn]; [done|]. exfalso. unfold Ed2, purgeE, markE in H. 
        rewrite !(decide_False _ _ Hn), decide_True in H; [|apply tedges_spec; exists w; split; [split; [done|apply Hw]|done]].
        rewrite E0 in H. cbn in H. rewrite (proj1 (Ie _ _ E0)) in H. done. }
      apply elem_of_list_fmap in Hin as (u & Eu & Hu%dartsB). pose proof (bw_L u Hu) as HuL.
      destruct (bw_outer O K F okF u Hu) as [Ho Ho']. destruct (vo_adj _ _ (vm_vok _ _ _ Hm) u HuL) as [_ (T1 & T2 & _)].
      assert (vd Lm (av F u)) as HoL. { split; [|apply Ho]. apply OK_L, elem_of_union_l, Ho. }
      destruct (uv_pair w u Hw HuL) as [Ep'|Ep']; [congruence|..].
      + exists (to_twin_edge (av F u)). assert (pair2 (vv F (to_twin_edge (av F u))) = pair2 (vv F w)) as Ep2.
        { unfold pair2 in *. rewrite vv_twin by apply Ho. cbn [q0 q1]. congruence. }
        split; [by apply vd_twin|]. split; [|done]. rewrite <- Ew. apply pair_uv; [by apply vd_twin|done|]. by rewrite Ep2.
      + exists (av F u). assert (pair2 (vv F (av F u)) = pair2 (vv F w)) as Ep2. { unfold pair2 in *. congruence. }
        split; [done|]. split; [|done]. rewrite <- Ew. apply pair_uv; [done|done|]. by rewrite Ep2.
    - exists w. split; [|done]. split; [|apply Hw]. apply elem_of_difference. split; [apply Hw|done].
  Qed.
  Lemma bw_edge2 u : bw u → is_Some (Ed2 (uv F u)).
  Proof.
    intros Hu. destruct (eokF u (bw_L u Hu)) as (ue & Eu & _).
    assert (uv F u ∈ uv F <$> darts B) as Hin by (apply elem_of_list_fmap; exists u; split; [done|by apply dartsB]).
    unfold Ed2, purgeE, markE. rewrite !(decide_True _ _ Hin). rewrite Eu. cbn. destruct (decide _); eauto.
  Qed.

  (** Replacing the tets of the boundary triangles. *)
  Lemma stage1 : ∃ m1 tm1 Z L3 F3, 
    (m0 ← trimap_remove_tets m E; m0 ← mfoldl mark_tri B m0; m0 ← mfoldl purge_tet E m0; mfoldl own_tet B (m0, [])) = Some (m1, Z.*2) ∧
    Z.*1 = B ∧ st (im_npi (m_tets m) + N.of_nat (length B)) (im_npi (m_edges m)) L3 F3 Ed2 Vt gf tm1 m1 ∧
    owned O F Kb Z L3 F3 ∧
    (m_track m = true → ∀ k, (k ∈ tkeys F E → tm1 !! k = None) ∧ (k ∉ tkeys F E → tm1 !! k = m_trimap m !! k)).
  Proof.
    destruct (trimap_remove_tets_st m Lm F E (vm_mv _ _ _ Hm) HEL) as (tm1 & E1 & H1). rewrite E1. cbn [mbind option_bind].
    assert (st (im_npi (m_tets m)) (im_npi (m_edges m)) Lm F Ed Vt gf tm1 (with_trimap m tm1)) as S0.
    { split; try done; try apply Hm. }
    destruct (mark_s _ _ _ _ _ _ _ _ _ B F Ed _ S0) as (m1 & E2 & S1).
    { intros w Hw. apply HEL. by apply B_E. }
    { intros u Hu%dartsB. destruct (eokF u (bw_L u Hu)) as (ue & Eu & _). rewrite Eu. eauto. }
    rewrite E2. cbn [mbind option_bind].
    destruct (purge_s _ _ _ _ _ _ _ _ _ E _ _ _ S1 HEn HEL) as (m2 & E3 & S2). rewrite E3. cbn [mbind option_bind].
    destruct (own_s (V:=V) (m_track m) (m_center m) (im_npi (m_verts m)) O K Kb F okF disj) with (B := B) (Z := [] : list (walker * walker)) (m := m2)
      (nt := im_npi (m_tets m)) (ne := im_npi (m_edges m)) (Ed := Ed2) (Vt := Vt) (gf := gf) (tm := tm1)
      (G := F1) (L := Lm ∖ list_to_set (unmarked F1 E)) as (m3 & Z & L3 & F3 & E4 & E5 & S3 & Ho).
    - intros id (w & -> & Hw)%elem_of_list_to_set%elem_of_list_fmap. apply elem_of_list_to_set. by apply B_E.
    - exact S2.
    - split; try (intros * H%elem_of_nil; done); try (intros * ?; done).
      + intros id. rewrite elem_of_difference, elem_of_list_to_set, unmarked_F1, elem_of_difference, !elem_of_list_to_set. split.
        * intros [H2 H3]. destruct (decide (id ∈ E)) as [H4|H4]; [right; left|left; done]. destruct (decide (id ∈ w_tet <$> B)); tauto.
        * intros [[H2 H3]|[H2|H2%elem_of_nil]]; [split; [done|tauto]|split; [|tauto]|done]. apply elem_of_list_fmap in H2 as (w & -> & Hw). by apply HEL, B_E.
      + apply NoDup_nil_2.
      + intros id Hid. rewrite F1_O by set_solver. done.
      + intros id Hid. assert (t_opp (F1 id) = t_opp (F id)) as Q by apply F1_sim. unfold oppok. rewrite Q.
        apply (vok_oppok (O ∪ K)); [apply okF|by apply elem_of_union_l].
      + intros id Hid. split; [apply F1_sim|]. rewrite F1_dup. cbn. rewrite elem_of_nil.
        assert (id ∈ Lm) as HL. { apply elem_of_list_to_set, elem_of_list_fmap in Hid as (w & -> & Hw). by apply HEL, B_E. }
        rewrite (proj2 (It id HL)). split; done.
      + intros r Hr _. unfold av. assert (t_opp (F1 (w_tet r)) = t_opp (F (w_tet r))) as -> by apply F1_sim. done.
    - assert (invalid_id < u32_mod)%N by done. lia.
    - intros w Hw. pose proof (HB w Hw) as [H2 H3]. split; [done|]. split; [done|]. apply elem_of_list_to_set. by apply elem_of_list_fmap_1.
    - exact HBn.
    - exists m3, tm1, Z, L3, F3. cbn in E5. done.
  Qed.

  (** ** The cone. *)
  Section stage2.
    Context (Z : list (walker * walker)) (L3 : gset N) (F3 : N → tet T) (HZ : Z.*1 = B) (Ho : owned O F Kb Z L3 F3).
    Notation B' := (Z.*2).
    Notation K' := (list_to_set (w_tet <$> Z.*2) : gset N).
    Definition ρ (s : N * nat) : N := default 0%N ((list_to_map ((λ p, (side p.1, w_tet p.2)) <$> Z) : gmap (N * nat) N) !! s).
    Notation mvd := (mvd ρ).

    Lemma Zkeys : ((λ p : walker * walker, (side p.1, w_tet p.2)) <$> Z).*1 = side <$> B.
    Proof. rewrite <- HZ, <- !list_fmap_compose. done. Qed.
    Lemma Zρ w w' : (w, w') ∈ Z → ρ (side w) = w_tet w'.
    Proof.
      intros H. unfold ρ. rewrite (elem_of_list_to_map_1 _ (side w) (w_tet w')); [done|by rewrite Zkeys|].
      apply elem_of_list_fmap. exists (w, w'). done.
    Qed.
    Lemma Zmvd w w' : (w, w') ∈ Z → w' = mvd w.
    Proof. intros H. unfold InsTopo.mvd. rewrite (Zρ _ _ H). pose proof (ow_edge _ _ _ _ _ _ Ho _ _ H). destruct w'; cbn in *; congruence. Qed.
    Lemma Zin w w' : (w, w') ∈ Z → w ∈ B.
    Proof. intros H. rewrite <- HZ. apply elem_of_list_fmap. by exists (w, w'). Qed.
    Lemma Zbw u : bw u → ∃ w, w ∈ B ∧ (w, mvd w) ∈ Z ∧ side u = side w ∧ u ∈ [w; to_nfe w; to_pfe w].
    Proof.
      intros Hu. pose proof (HBa u Hu) as H. apply elem_of_list_fmap in H as (w & Es & Hw).
      pose proof Hw as Hz. rewrite <- HZ in Hz. apply elem_fst_snd in Hz as (w' & Hz). pose proof (Zmvd _ _ Hz) as ->.
      exists w. split; [done|]. split; [done|]. split; [done|]. rewrite !elem_of_cons, elem_of_nil.
      pose proof (same_side_dart u w (proj2 (proj1 Hu)) (proj2 (proj1 (HB w Hw))) Es). tauto.
    Qed.
    Lemma simZ u : bw u → sim (F (w_tet u)) (F3 (ρ (side u))).
    Proof.
      intros Hu. destruct (Zbw u Hu) as (w & Hw & Hz & Es & _). rewrite Es, (Zρ _ _ Hz).
      assert (w_tet u = w_tet w) as -> by (unfold side in Es; congruence). exact (ow_Z _ _ _ _ _ _ Ho _ _ Hz).
    Qed.
    Lemma vv3 u : bw u → vv F3 (mvd u) = vv F u.
    Proof. intros Hu. unfold vv. cbn [w_tet w_edge InsTopo.mvd]. by rewrite (proj1 (simZ u Hu)). Qed.
    Lemma uv3 u : bw u → uv F3 (mvd u) = uv F u.
    Proof. intros Hu. unfold uv. cbn [w_tet w_edge InsTopo.mvd]. destruct (simZ u Hu) as (_ & _ & -> & _). done. Qed.
    Lemma dartsZ d : d ∈ darts B' ↔ ∃ u, bw u ∧ d = mvd u.
    Proof.
      rewrite elem_darts. split.
      - intros (w' & Hw' & Hd). apply elem_of_list_fmap in Hw' as ([w w''] & -> & Hz). cbn [snd] in Hd. pose proof (Zmvd _ _ Hz) as ->.
        pose proof (HB w (Zin _ _ Hz)) as Hw. pose proof (proj2 (proj1 Hw)) as He. destruct Hd as [->|[->| ->]].
        + by exists w.
        + exists (to_nfe w). split; [by apply bw_nfe|]. by rewrite mvd_nfe.
        + exists (to_pfe w). split; [by apply bw_pfe|]. by rewrite mvd_pfe.
      - intros (u & Hu & ->). destruct (Zbw u Hu) as (w & Hw & Hz & _ & Hd). pose proof (proj2 (proj1 (HB w Hw))) as He.
        exists (mvd w). split; [apply elem_of_list_fmap; by exists (w, mvd w)|]. rewrite !elem_of_cons, elem_of_nil in Hd.
        destruct Hd as [->|[->|[->|[]]]]; [by left|right; left; by rewrite mvd_nfe|right; right; by rewrite mvd_pfe].
    Qed.
    Lemma ρ_inj u u' : bw u → bw u' → ρ (side u) = ρ (side u') → side u = side u'.
    Proof.
      intros Hu Hu' Er. destruct (Zbw u Hu) as (w & Hw & Hz & Es & _), (Zbw u' Hu') as (w' & Hw' & Hz' & Es' & _).
      rewrite Es, Es' in *. rewrite (Zρ _ _ Hz), (Zρ _ _ Hz') in Er. f_equal.
      pose proof (ow_nodup _ _ _ _ _ _ Ho) as Hnd. rewrite <- list_fmap_compose in Hnd.
      assert ((w, mvd w) = (w', mvd w')) as [= ->]; [|done].
      apply elem_of_list_lookup in Hz as [i Hi]. apply elem_of_list_lookup in Hz' as [j Hj].
      assert (i = j) as ->; [|congruence]. eapply (NoDup_lookup _ i j (w_tet (mvd w)) Hnd); rewrite list_lookup_fmap.
      - by rewrite Hi.
      - rewrite Hj. change (Some (w_tet (mvd w')) = Some (w_tet (mvd w))). by rewrite Er.
    Qed.
    Lemma mvd_inj3 u u' : bw u → bw u' → mvd u = mvd u' → u = u'.
    Proof.
      intros Hu Hu' Em. injection Em as E1 E2. apply ρ_inj in E1; [|done..]. injection E1 as E1 E3. destruct u, u'; cbn in *; congruence.
    Qed.
    Lemma K'_spec id : id ∈ K' ↔ ∃ u, bw u ∧ ρ (side u) = id.
    Proof.
      rewrite elem_of_list_to_set, elem_of_list_fmap. split.
      - intros (w' & -> & Hw'). assert (w' ∈ darts B') as Hd by (apply elem_darts; eauto). apply dartsZ in Hd as (u & Hu & ->). by exists u.
      - intros (u & Hu & <-). assert (mvd u ∈ darts B') as Hd by (apply dartsZ; eauto). apply elem_darts in Hd as (w' & Hw' & Hd).
        exists w'. split; [|done]. change (ρ (side u)) with (w_tet (mvd u)). by destruct Hd as [->|[->| ->]].
    Qed.
    Lemma disj3 : O ## K'.
    Proof.
      intros id HO (w' & -> & Hw')%elem_of_list_to_set%elem_of_list_fmap. apply elem_of_list_fmap in Hw' as ([w w''] & -> & Hz).
      by apply (ow_disj _ _ _ _ _ _ Ho _ _ Hz).
    Qed.
    Lemma L3_eq id : id ∈ L3 ↔ id ∈ O ∪ K'.
    Proof.
      rewrite (ow_L _ _ _ _ _ _ Ho), elem_of_union, (elem_of_list_to_set (C := gset N) id (w_tet <$> B')). split; [|tauto].
      intros [?|[HK|?]]; [tauto| |tauto]. right. apply (ow_first _ _ _ _ _ _ Ho id HK). rewrite HZ. by apply elem_of_list_to_set in HK.
    Qed.

    (** The two boundary triangles at an edge, after the replacement. *)
    Definition M (d d' : walker) : Prop := d ∈ darts B' ∧ d' ∈ darts B' ∧ q0 (vv F3 d') = q1 (vv F3 d) ∧ q1 (vv F3 d') = q0 (vv F3 d).
    Lemma M_mate u u' : bw u → bw u' → M (mvd u) (mvd u') ↔ mate u u'.
    Proof.
      intros Hu Hu'. unfold M, InsTopo.mate. rewrite !vv3 by done. split; [intros (_ & _ & ? & ?); done|]. intros (_ & _ & ? & ?).
      split; [apply dartsZ; eauto|]. split; [apply dartsZ; eauto|]. done.
    Qed.
    Global Instance M_dec d d' : Decision (M d d').
    Proof. unfold M. apply _. Qed.
    Lemma M_sym d d' : M d d' → M d' d.
    Proof. intros (?&?&?&?). done. Qed.
    Lemma M_fun d d1 d2 : M d d1 → M d d2 → d1 = d2.
    Proof.
      intros (H1 & H2 & H3 & H4) (_ & H2' & H3' & H4'). apply dartsZ in H2 as (u & Hu & ->). apply dartsZ in H2' as (u' & Hu' & ->).
      f_equal. apply Sedge; [done..|]. rewrite !vv3 in * by done. unfold pair2. congruence.
    Qed.
    Lemma M_tot d : d ∈ darts B' → ∃ d', M d d'.
    Proof. intros (u & Hu & ->)%dartsZ. destruct (matesF u Hu) as (u' & Hm'). exists (mvd u'). apply M_mate; [done| |done]. apply Hm'. Qed.
    Lemma M_irr d : ¬ M d d.
    Proof.
      intros ((u & Hu & ->)%dartsZ & _ & H & _). rewrite vv3 in H by done. apply (cr_nd O K F okF u); [by apply (cr_bw O K F)|done].
    Qed.
    Lemma M_κ d d' : M d d' → uv F3 d = uv F3 d'.
    Proof.
      intros ((u & Hu & ->)%dartsZ & (u' & Hu' & ->)%dartsZ & H1 & H2). rewrite !uv3 by done. rewrite !vv3 in * by done.
      apply pair_uv; [by apply bw_L..|]. unfold pair2. rewrite H1, H2. apply sorted_2_comm.
    Qed.
    Lemma κ_M d d' : d ∈ darts B' → d' ∈ darts B' → uv F3 d = uv F3 d' → d = d' ∨ M d d'.
    Proof.
      intros (u & Hu & ->)%dartsZ (u' & Hu' & ->)%dartsZ H. rewrite !uv3 in H by done.
      destruct (uv_pair u u' (bw_L u Hu) (bw_L u' Hu') H) as [Ep|Ep].
      - left. f_equal. by apply Sedge.
      - right. apply M_mate; [done..|]. split; [done|]. split; [done|]. unfold pair2 in Ep. split; congruence.
    Qed.

    Context (Hinv : ∀ id, id ∈ L3 → id ≠ invalid_id).
    Lemma HB3 w : w ∈ B' → w_edge w < 12 ∧ w_tet w ∉ O ∧ w_tet w ≠ invalid_id.
    Proof.
      intros Hw. assert (w ∈ darts B') as Hd by (apply elem_darts; eauto). apply dartsZ in Hd as (u & Hu & ->).
      split; [apply Hu|]. assert (w_tet (mvd u) ∈ K') as HK by (apply K'_spec; exists u; done). split.
      - intros HO. exact (disj3 _ HO HK).
      - apply Hinv. apply L3_eq. by apply elem_of_union_r.
    Qed.

    Lemma stage2 nt tm1 m1 : st nt (im_npi (m_edges m)) L3 F3 Ed2 Vt gf tm1 m1 →
      ∃ m2 F4 Ed4 l, mfoldl (cone_tri v) B' m1 = Some m2 ∧ st nt (im_npi (m_edges m)) (O ∪ K') F4 Ed4 (refd Vt l) gf tm1 m2 ∧
        joins O F3 B' M (darts B') F4 Ed4 ∧ cones O F3 Ed2 B' v B' F4 Ed4 l.
    Proof.
      intros Hst.
      destruct (cones_s (V:=V) (m_track m) (m_center m) (im_npi (m_verts m)) O F3 Ed2 B' M) with (v := v) (Vt3 := Vt) (nt := nt) (ne := im_npi (m_edges m)) (gf := gf) (tm := tm1)
        (l0 := B') (P := [] : list walker) (F := F3) (Ed := Ed2) (l := [] : list (N * walker)) (m := m1) as (m2 & F4 & Ed4 & l & H1 & H2 & H3 & H4).
      - exact HB3.
      - exact (ow_nodup _ _ _ _ _ _ Ho).
      - exact M_sym.
      - exact M_fun.
      - exact M_tot.
      - intros d d' H. apply H.
      - exact M_irr.
      - exact M_κ.
      - exact κ_M.
      - exact Hv.
      - done.
      - eapply st_ext; [..|exact Hst]; try done.
        + intros id. apply L3_eq.
        + intros x. unfold refd. cbn. destruct (Vt x) as [[]|]; done.
      - split; try done; try (intros * H%elem_of_nil; done).
        + intros id Hid. apply elem_of_union in Hid as [Hid|Hid]; [by apply (ow_opp _ _ _ _ _ _ Ho)|].
          apply K'_spec in Hid as (u & Hu & <-). intros i Hi. destruct (simZ u Hu) as (_ & -> & _).
          apply (vok_oppok _ _ _ okF); [|done]. apply (cr_bw O K F u Hu).
        + intros d (u & Hu & ->)%dartsZ. rewrite uv3 by done. by apply bw_edge2.
        + intros e ue He _. apply Ed2_old in He as (ue0 & E0 & _ & _ & ->). by apply (Ie e).
      - split; try done; try (intros * H%elem_of_nil; done).
        intros e ue He. rewrite He. done.
      - exists m2, F4, Ed4, l. done.
    Qed.

    Context (F4 : N → tet T) (Ed4 : N → option uedge) (l : list (N * walker)).
    Context (Hj : joins O F3 B' M (darts B') F4 Ed4) (Hcn : cones O F3 Ed2 B' v B' F4 Ed4 l).

    (** The tet of a boundary walker in the cone. *)
    Lemma bw_done u : bw u → ∃ w', w' ∈ B' ∧ mvd u ∈ [w'; to_nfe w'; to_pfe w'] ∧ w_edge w' < 12 ∧ w_tet w' = ρ (side u) ∧
      w_edge w' mod 4 = w_edge u mod 4 ∧ same_but_opp (cone_t v w' (F3 (ρ (side u)))) (F4 (ρ (side u))).
    Proof.
      intros Hu. assert (mvd u ∈ darts B') as Hd by (apply dartsZ; eauto). apply elem_darts in Hd as (w' & Hw' & Hd). exists w'. split; [done|].
      destruct (HB3 w' Hw') as (He & _). assert (w_tet w' = ρ (side u)) as Et.
      { change (ρ (side u)) with (w_tet (mvd u)). by destruct Hd as [->|[->| ->]]. }
      split; [rewrite !elem_of_cons, elem_of_nil; tauto|]. split; [done|]. split; [done|]. split.
      - change (w_edge u) with (w_edge (mvd u)). destruct Hd as [->|[->| ->]]; [done|symmetry; apply nfe_mod4, He|symmetry; apply pfe_mod4, He].
      - rewrite <- Et. exact (cn_done _ _ _ _ _ _ _ _ _ Hcn w' Hw').
    Qed.
    Lemma cone_locks w' (t : tet T) i : i < 4 → get4 (f_locked (t_flags (cone_t v w' t))) i =
      if decide (i = w_edge w' mod 4) then get4 (f_locked (t_flags t)) i else false.
    Proof.
      intros Hi. unfold cone_t. cbn [t_flags set_v set_locked set_flags f_locked set_tdup set_tbound].
      rewrite !get4_set4 by (apply mod4 || done).
      assert (∀ k, (w_edge w' + k) mod 4 = (w_edge w' mod 4 + k) mod 4) as Hk by (intros; by rewrite Nat.add_mod_idemp_l).
      rewrite !Hk. pose proof (mod4 (w_edge w')) as H4. destruct (w_edge w' mod 4) as [|[|[|[|n]]]]; [..|lia]; cbn -[decide];
        do 4 (destruct i as [|i]; [done|]); lia.
    Qed.
    Lemma coned4 : coned O K K' F F4 v ρ.
    Proof.
      assert (∀ id, id ∈ O → same_but_opp (F id) (F4 id)) as HO.
      { intros id Hid. eapply same_trans; [apply (ow_O _ _ _ _ _ _ Ho id Hid)|]. exact (cn_O _ _ _ _ _ _ _ _ _ Hcn id Hid). }
      assert (∀ r, vd O r → av F4 r = av F3 r) as Hav. { intros r Hr. unfold av. by rewrite (jo_O _ _ _ _ _ _ _ Hj (w_tet r) (proj1 Hr)). }
      split.
      - apply disj.
      - apply disj3.
      - intros w Hw. apply Hvn. by rewrite <- OK_eq.
      - apply K'_spec.
      - apply ρ_inj.
      - intros id Hid. apply (HO id Hid).
      - intros id Hid. destruct (HO id Hid) as (_ & _ & -> & _). done.
      - intros r Hr Ht. rewrite Hav by done. apply (ow_out _ _ _ _ _ _ Ho); [done|]. intros Hs. rewrite HZ in Hs.
        apply elem_of_list_fmap in Hs as (w & Es & Hw). pose proof (B_E w Hw) as HwE. unfold side in Es. injection Es as Es _.
        rewrite Es in Ht. set_solver.
      - intros r Hr Ht. rewrite Hav by done. destruct (outer_bw O K F okF r Hr Ht) as [Hb _]. destruct (Zbw _ Hb) as (w & Hw & Hz & Es & _).
        rewrite (ow_in _ _ _ _ _ _ Ho _ _ r Hz Hr Es). unfold InsTopo.mvd. cbn [w_tet]. by rewrite Es.
      - exact (jo_ok _ _ _ _ _ _ _ Hj).
      - intros u Hu. destruct (bw_done u Hu) as (w' & Hw' & Hd & He & Et & Em & (Ev & _)).
        rewrite (vv_cone F3 v F4 w' (mvd u) He Hd); [by rewrite vv3|]. rewrite Et, Ev. done.
      - intros u Hu. destruct (bw_done u Hu) as (w' & Hw' & Hd & He & Et & Em & _).
        pose proof (jo_out _ _ _ _ _ _ _ Hj w' Hw') as Ho'. rewrite Et, Em in Ho'. unfold av. cbn [w_tet w_edge InsTopo.mvd]. rewrite Ho'.
        destruct (simZ u Hu) as (_ & -> & _). done.
      - intros u Hu. destruct (bw_done u Hu) as (w' & Hw' & Hd & He & Et & Em & (_ & _ & Ef & _)).
        unfold lv. cbn [w_tet w_edge InsTopo.mvd]. rewrite Ef, cone_locks by apply mod4. rewrite decide_True by done.
        destruct (simZ u Hu) as (_ & _ & _ & _ & (-> & _)). done.
      - intros u Hu. destruct (bw_done u Hu) as (w' & Hw' & Hd & He & Et & Em & (_ & _ & Ef & _)).
        unfold lv. change (w_tet (to_twin_edge (mvd u))) with (ρ (side u)). rewrite Ef, cone_locks by apply mod4. rewrite decide_False; [done|].
        by apply inner_outer.
      - intros u u' Hmt. pose proof Hmt as (Hu & Hu' & _). apply (jo_in _ _ _ _ _ _ _ Hj); [apply dartsZ; eauto|apply dartsZ; eauto|]. by apply M_mate.
    Qed.
    Lemma vok4 : vok (O ∪ K') F4.
    Proof. exact (coned_vok O K K' F F4 v ρ okF coned4 closedF). Qed.

    (** ** The new edges. *)
    Notation Vt4 := (refd Vt l).
    Lemma vt4_ghost : Vt4 GHOST = None.
    Proof. unfold refd. by rewrite (vm_ghost _ _ _ Hm). Qed.
    Lemma vt4_some (x : N) : is_Some (Vt4 x) ↔ is_Some (Vt x).
    Proof. unfold refd. by rewrite fmap_is_Some. Qed.
    Lemma vt4_fl (x : N) : fl Vt4 gf x = fl Vt gf x.
    Proof. unfold fl, refd. destruct (decide _); [done|]. by destruct (Vt x). Qed.
    Lemma vt4_idle (x : N) f : fl Vt4 gf x = Some f → vf_edge_added f = false.
    Proof. rewrite vt4_fl. apply Iv. Qed.
    Lemma first4 z : vd (O ∪ K') z → q0 (vv F4 z) = v ∨ ∃ x, vd Lm x ∧ q0 (vv F x) = q0 (vv F4 z).
    Proof.
      intros Hz. destruct (decide (q0 (vv F4 z) = v)) as [|Hn]; [by left|right].
      destruct (vert_rep O K K' F F4 v ρ okF coned4 z Hz Hn) as (x & Hx & Ex & _). exists x. rewrite <- OK_eq. done.
    Qed.
    Lemma vt4_ex z : vd (O ∪ K') z → q0 (vv F4 z) = GHOST ∨ is_Some (Vt4 (q0 (vv F4 z))).
    Proof.
      intros Hz. rewrite vt4_some. destruct (first4 z Hz) as [->|(x & Hx & <-)].
      - right. destruct Hv as (vt & -> & _). eauto.
      - by apply (vm_ex _ _ _ Hm).
    Qed.
    Lemma mfoldl_bind {S X Y} (f : S → X → option S) (g : Y → list X) (k : list Y) : ∀ s : S, mfoldl (λ (s : S) (y : Y), mfoldl f (g y) s) k s = mfoldl f (k ≫= g) s.
    Proof.
      induction k as [|y k IH]; intros s; [done|]. cbn [mfoldl]. change ((y :: k) ≫= g) with (g y ++ (k ≫= g)). rewrite mfoldl_app.
      destruct (mfoldl f (g y) s); cbn [mbind option_bind]; [apply IH|done].
    Qed.
    Lemma perm_spokes w : w_edge w < 12 → to_perm w P1320 = to_perm (to_nfe w) P0312 ∧ to_perm w P2301 = to_perm (to_pfe w) P0312.
    Proof. destruct w as [t i]. cbn [w_edge]. intros H. case12 i H; done. Qed.
    Definition spoke_list : list walker := B' ≫= λ w, [to_perm w P0312; to_perm w P1320; to_perm w P2301].
    Lemma elem_spokes z : z ∈ spoke_list ↔ ∃ u, bw u ∧ z = spoke ρ u.
    Proof.
      unfold spoke_list. rewrite elem_of_list_bind. unfold spoke. split.
      - intros (w & Hz & Hw). destruct (HB3 w Hw) as (He & _). destruct (perm_spokes w He) as [E1 E2]. rewrite E1, E2 in Hz.
        assert (∃ d, d ∈ darts B' ∧ z = to_perm d P0312) as (d & Hd & ->).
        { rewrite !elem_of_cons, elem_of_nil in Hz. destruct Hz as [->|[->|[->|[]]]]; eexists; (split; [|done]); apply elem_darts; exists w; tauto. }
        apply dartsZ in Hd as (u & Hu & ->). eauto.
      - intros (u & Hu & ->). assert (mvd u ∈ darts B') as Hd by (apply dartsZ; eauto). apply elem_darts in Hd as (w' & Hw' & Hd).
        exists w'. split; [|done]. destruct (HB3 w' Hw') as (He & _). destruct (perm_spokes w' He) as [E1 E2]. rewrite E1, E2.
        rewrite !elem_of_cons, elem_of_nil. destruct Hd as [->|[->| ->]]; tauto.
    Qed.
    Lemma spoke_list_length : length spoke_list = 3 * length B.
    Proof.
      unfold spoke_list. rewrite <- HZ. clear. induction Z as [|[w w'] Y IH]; [done|]. change (length (_ :: Y).*1) with (S (length Y.*1)).
      change (((w, w') :: Y).*2 ≫= _) with ([to_perm w' P0312; to_perm w' P1320; to_perm w' P2301] ++ (Y.*2 ≫= λ w, [to_perm w P0312; to_perm w P1320; to_perm w P2301])).
      rewrite app_length, IH. cbn [length]. lia.
    Qed.
    Lemma darts_bind : darts B' = B' ≫= λ w, [w; to_nfe w; to_pfe w].
    Proof. done. Qed.

    Lemma stage3 nt tm1 m2 : st nt (im_npi (m_edges m)) (O ∪ K') F4 Ed4 Vt4 gf tm1 m2 →
      ∃ m3 m4 A F5 Ed5, mfoldl (add_spokes v) B' m2 = Some m3 ∧ mfoldl clear_added B' m3 = Some m4 ∧
        st nt (im_npi (m_edges m) + N.of_nat (3 * length B)) (O ∪ K') F5 Ed5 Vt4 gf tm1 m4 ∧ spoked (O ∪ K') F4 v Ed4 A F5 Ed5 ∧
        ∀ a, a ∈ A.*1 ↔ ∃ u, bw u ∧ a = q0 (vv F u).
    Proof.
      intros Hst. unfold add_spokes, clear_added.
      rewrite (mfoldl_bind (add_spoke v) (λ w, [to_perm w P0312; to_perm w P1320; to_perm w P2301])). fold spoke_list.
      destruct (spokes_s (V:=V) (tr := m_track m) (ctr := m_center m) (nv := im_npi (m_verts m)) (O ∪ K') F4 v Ed4 Vt4 gf vok4 vt4_ghost vt4_ex vt4_idle nt tm1 spoke_list
        (im_npi (m_edges m)) [] F4 Ed4 m2) as (m3 & A & F5 & Ed5 & E3 & S3 & Hsp & HA).
      { eapply st_ext; [..|exact Hst]; done. }
      { split; try done; try apply NoDup_nil_2; try (intros * H%elem_of_nil; done). all: intros; cbn in *; repeat match goal with H : _ ∈ [] |- _ => by apply elem_of_nil in H end. }
      { rewrite spoke_list_length. exact Re. }
      { intros w (u & Hu & ->)%elem_spokes. split; [|by rewrite (vv_spoke O K K' F F4 v ρ coned4 u Hu)].
        pose proof (spoke_vd O K K' F F4 v ρ coned4 u Hu) as [H1 H2]. split; [by apply elem_of_union_r|done]. }
      rewrite spoke_list_length in S3.
      assert (∀ a, a ∈ A.*1 ↔ ∃ u, bw u ∧ a = q0 (vv F u)) as HA'.
      { intros a. rewrite HA. split.
        - intros [[]%elem_of_nil|(w & (u & Hu & ->)%elem_spokes & ->)]. exists u. by rewrite (vv_spoke O K K' F F4 v ρ coned4 u Hu).
        - intros (u & Hu & ->). right. exists (spoke ρ u). split; [apply elem_spokes; eauto|]. by rewrite (vv_spoke O K K' F F4 v ρ coned4 u Hu). }
      assert (∀ d, d ∈ darts B' → vd (O ∪ K') d) as Hdv.
      { intros d (u & Hu & ->)%dartsZ. pose proof (mvd_vd O K K' F F4 v ρ coned4 u Hu) as [H1 H2]. split; [by apply elem_of_union_r|done]. }
      destruct (clear_s (V:=V) (tr := m_track m) (ctr := m_center m) (nv := im_npi (m_verts m)) (O ∪ K') F4 Ed4 Vt4 vt4_ex nt
        (im_npi (m_edges m) + N.of_nat (3 * length B)) F5 Ed5 tm1 (darts B') [] (addV true Vt4 A.*1) (addG true gf A.*1) m3) as (m4 & E4 & S4).
      { eapply st_ext; [..|exact S3]; done. }
      { exact (sp_F _ _ _ _ _ _ _ Hsp). }
      { unfold addV. rewrite vt4_ghost. by destruct (decide _). }
      { intros x. unfold addV. destruct (decide _); [by rewrite fmap_is_Some|done]. }
      { exact Hdv. }
      exists m3, m4, A, F5, Ed5. split; [done|]. split; [rewrite <- E4; rewrite darts_bind; apply (mfoldl_bind (λ m u, x ← w_first m u; set_added false m x) (λ w, [w; to_nfe w; to_pfe w]))|].
      split; [|split; [done|done]]. cbn [app] in S4.
      assert (∀ a, a ∈ A.*1 → a ∈ (λ w, q0 (vv F4 w)) <$> darts B') as Hsub.
      { intros a (u & Hu & ->)%HA'. apply elem_of_list_fmap. exists (mvd u). split; [by rewrite (vvD O K K' F F4 v ρ coned4 u Hu)|apply dartsZ; eauto]. }
      rewrite (addG_restore Vt4 gf vt4_idle _ _ Hsub) in S4. eapply st_ext; [..|exact S4]; try done.
      intros x. apply (addV_restore Vt4 gf vt4_ghost vt4_idle _ _ _ Hsub).
    Qed.

    (** ** The result. *)
    Context (A : list (N * N)) (F5 : N → tet T) (Ed5 : N → option uedge).
    Context (Hsp : spoked (O ∪ K') F4 v Ed4 A F5 Ed5) (HA : ∀ a, a ∈ A.*1 ↔ ∃ u, bw u ∧ a = q0 (vv F u)).
    Lemma vv5 w : vv F5 w = vv F4 w.
    Proof. apply se_vv. apply Hsp. Qed.
    Lemma vok5 : vok (O ∪ K') F5.
    Proof. eapply se_vok; [apply Hsp|apply vok4]. Qed.
    Lemma vv4_O w : vd O w → vv F4 w = vv F w.
    Proof. intros Hw. unfold vv. by rewrite (co_vsO _ _ _ _ _ _ _ coned4 _ (proj1 Hw)). Qed.
    Lemma vd_OK x : vd O x → vd Lm x.
    Proof. intros Hx. split; [|apply Hx]. apply OK_L, elem_of_union_l, Hx. Qed.
    Lemma vd_KL x : vd K x → vd Lm x.
    Proof. intros Hx. split; [|apply Hx]. apply OK_L, elem_of_union_r, Hx. Qed.
    Lemma es3_O id : id ∈ O → t_edges (F3 id) = t_edges (F id).
    Proof. intros Hid. destruct (ow_O _ _ _ _ _ _ Ho id Hid) as (_ & H & _). done. Qed.
    Lemma uv_twin (G : N → tet T) u : w_edge u < 12 → uv G (to_twin_edge u) = uv G u.
    Proof. destruct u as [t i]. cbn [w_edge]. intros H. unfold uv. cbn [w_tet w_edge to_twin_edge]. case12 i H; done. Qed.
    (** The edges of the new mesh: those of the kept tets ... *)
    Lemma Ed5_old e : e ∉ A.*2 → (λ ue, (ue_vs ue, ue_locked ue)) <$> Ed5 e = (λ ue, (ue_vs ue, ue_locked ue)) <$> Ed2 e.
    Proof. intros He. rewrite (sp_E _ _ _ _ _ _ _ Hsp e He). apply (cn_E _ _ _ _ _ _ _ _ _ Hcn). Qed.
    Lemma Ed2_A e : is_Some (Ed2 e) → e ∉ A.*2.
    Proof.
      intros H (p & -> & Hp)%elem_of_list_fmap. destruct p as [a e]. destruct (sp_fresh _ _ _ _ _ _ _ Hsp a e Hp) as [H4 _].
      pose proof (cn_E _ _ _ _ _ _ _ _ _ Hcn e) as Hc. cbn in H. destruct H as [ue H]. rewrite H4, H in Hc. done.
    Qed.
    Lemma epair5 e : is_Some (Ed2 e) → ue_vs <$> Ed5 e = ue_vs <$> Ed2 e.
    Proof.
      intros H. pose proof (Ed5_old e (Ed2_A e H)) as Q. destruct (Ed5 e), (Ed2 e); try done. cbn in *. congruence.
    Qed.
    Lemma Ed2_in w : vd Lm w → is_Some (Ed2 (uv F w)) → ue_vs <$> Ed5 (uv F w) = Some (sorted_2 (q0 (vv F w), q1 (vv F w))).
    Proof.
      intros Hw H. rewrite epair5 by done. destruct H as [ue H]. rewrite H. destruct (Ed2_old _ _ H) as (ue0 & E0 & E1 & _).
      destruct (eokF w Hw) as (ue1 & E2 & E3). cbn [fmap option_fmap option_map]. rewrite E1. congruence.
    Qed.
    Lemma uv5_old w : vd (O ∪ K') w → q0 (vv F4 w) ≠ v → q1 (vv F4 w) ≠ v → ∃ x, vd Lm x ∧ is_Some (Ed2 (uv F x)) ∧ uv F5 w = uv F x ∧ pair2 (vv F x) = pair2 (vv F4 w).
    Proof.
      intros Hw H0 H1. rewrite (sp_old _ _ _ _ _ _ _ Hsp w Hw H0 H1).
      assert (∀ id, t_edges (F4 id) = t_edges (F3 id)) as He by apply (jo_es _ _ _ _ _ _ _ Hj).
      assert (∀ x, uv F4 x = uv F3 x) as Hu4. { intros x. unfold uv. by rewrite He. }
      rewrite Hu4. destruct (edge_cases O K K' F F4 v ρ coned4 w Hw H0 H1) as [HO|(u & Hu & [->| ->])].
      - exists w. split; [by apply vd_OK|]. split; [by apply kept_edge|]. split; [unfold uv; by rewrite (es3_O _ (proj1 HO))|]. by rewrite vv4_O.
      - exists u. split; [by apply bw_L|]. split; [by apply bw_edge2|]. split; [by apply uv3|]. by rewrite (vvD O K K' F F4 v ρ coned4 u Hu).
      - exists (to_twin_edge u). pose proof (bw_L u Hu) as HuL. assert (∀ G : N → tet T, uv G (to_twin_edge u) = uv G u) as Ht.
        { intros G. apply uv_twin. apply HuL. }
        rewrite Ht. split; [by apply vd_twin|]. split; [by apply bw_edge2|]. split.
        + rewrite <- (uv3 u Hu). apply uv_twin. apply HuL.
        + rewrite (vvI O K K' F F4 v ρ coned4 u Hu). unfold pair2. by rewrite vv_twin by apply HuL.
    Qed.
    (** ... and those at the new vertex. *)
    Lemma uv5_new w : vd (O ∪ K') w → q1 (vv F4 w) = v → ∃ e, (q0 (vv F4 w), e) ∈ A ∧ uv F5 w = e ∧ uv F5 (to_twin_edge w) = e.
    Proof.
      intros Hw H1. destruct (second_new O K K' F F4 v ρ coned4 w Hw H1) as (u & Hu & ->).
      assert (q0 (vv F4 (spoke ρ u)) ∈ A.*1) as Hin. { apply HA. exists u. split; [done|]. by rewrite (vv_spoke O K K' F F4 v ρ coned4 u Hu). }
      apply elem_of_list_fmap in Hin as ([a e] & Ea & Hin). cbn in Ea. exists e. rewrite Ea. split; [done|].
      apply (sp_new _ _ _ _ _ _ _ Hsp (spoke ρ u) a e); done.
    Qed.
    Lemma Ed5_cases e ue : Ed5 e = Some ue → (∃ a, (a, e) ∈ A ∧ ue = uedge_new (a, v)) ∨ (e ∉ A.*2 ∧ ∃ ue2, Ed2 e = Some ue2 ∧ ue_vs ue = ue_vs ue2 ∧ ue_locked ue = ue_locked ue2).
    Proof.
      intros H. destruct (decide (e ∈ A.*2)) as [Hin|Hn].
      - left. apply elem_of_list_fmap in Hin as ([a e'] & -> & Hin). exists a. split; [done|]. destruct (sp_fresh _ _ _ _ _ _ _ Hsp _ _ Hin) as [_ H']. cbn in H. congruence.
      - right. split; [done|]. pose proof (Ed5_old e Hn) as Q. rewrite H in Q. destruct (Ed2 e) as [ue2|]; [|done]. cbn in Q. exists ue2. split; [done|]. by injection Q.
    Qed.
    Lemma bw_nv u : bw u → q0 (vv F u) ≠ v.
    Proof. intros Hu. apply Hvn. by apply bw_L. Qed.
    Lemma Ed2_nv e ue : Ed2 e = Some ue → (ue_vs ue).1 ≠ v ∧ (ue_vs ue).2 ≠ v.
    Proof.
      intros H. destruct (ue_vs ue) as [a b] eqn:Ev. destruct (Ed2_out e ue a b H Ev) as (w & Hw & _ & Ep). unfold pair2 in Ep.
      pose proof (Hvn w (vd_OK w Hw)). pose proof (Hvn (to_twin_edge w) (vd_twin _ _ (vd_OK w Hw))) as Hq. rewrite vv_twin in Hq by apply Hw. cbn [q0] in Hq.
      injection Ep as <- <-. done.
    Qed.
    Lemma eok5 : eok (O ∪ K') F5 (λ e, ue_vs <$> Ed5 e).
    Proof.
      split.
      - intros w Hw. rewrite vv5. destruct (decide (q1 (vv F4 w) = v)) as [E1|E1].
        + destruct (uv5_new w Hw E1) as (e & Hin & -> & _). destruct (sp_fresh _ _ _ _ _ _ _ Hsp _ _ Hin) as [_ ->]. by rewrite E1.
        + destruct (decide (q0 (vv F4 w) = v)) as [E0|E0].
          * pose proof (vd_twin _ _ Hw) as Hw'. destruct (uv5_new (to_twin_edge w) Hw') as (e & Hin & _ & E5).
            { by rewrite vv_twin by apply Hw. }
            assert (to_twin_edge (to_twin_edge w) = w) as Ett by (apply walker_laws, Hw). rewrite Ett in E5. rewrite E5.
            destruct (sp_fresh _ _ _ _ _ _ _ Hsp _ _ Hin) as [_ ->]. rewrite vv_twin by apply Hw. cbn [q0]. rewrite E0. cbn. f_equal. apply sorted_2_comm.
          * destruct (uv5_old w Hw E0 E1) as (x & Hx & Hx2 & -> & Ep). rewrite Ed2_in by done. unfold pair2 in Ep. by rewrite Ep.
      - intros e e' p H H'. destruct (Ed5 e) as [ue|] eqn:E1; [|done]. destruct (Ed5 e') as [ue'|] eqn:E2; [|done]. cbn in H, H'.
        injection H as H. injection H' as H'.
        assert (∀ a, (a ≠ v) → v = (sorted_2 (a, v)).1 ∨ v = (sorted_2 (a, v)).2) as Hs.
        { intros a _. unfold sorted_2. destruct (_ <? _)%N; auto. }
        destruct (Ed5_cases _ _ E1) as [(a & Ha & ->)|(HA1 & ue1 & Hu1 & Hv1 & _)], (Ed5_cases _ _ E2) as [(a' & Ha' & ->)|(HA2 & ue2 & Hu2 & Hv2 & _)].
        + cbn in H, H'. rewrite <- H' in H. assert (a = a') as <-. { apply sorted_2_eq in H as [[? ?]|[? ?]]; congruence. }
          assert (NoDup A.*1) as Hnd by apply Hsp. apply elem_of_list_lookup in Ha as [i Hi]. apply elem_of_list_lookup in Ha' as [j Hj'].
          assert (i = j) as ->; [|congruence]. apply (NoDup_lookup _ i j a Hnd); rewrite list_lookup_fmap; [by rewrite Hi|by rewrite Hj'].
        + exfalso. destruct (Ed2_nv _ _ Hu2) as [N1 N2]. rewrite <- Hv2, H', <- H in N1, N2. cbn in N1, N2. assert (a ∈ A.*1) as Hin by (apply elem_of_list_fmap; by exists (a, e)).
          apply HA in Hin as (u & Hu & ->). destruct (Hs _ (bw_nv u Hu)); done.
        + exfalso. destruct (Ed2_nv _ _ Hu1) as [N1 N2]. rewrite <- Hv1, H, <- H' in N1, N2. cbn in N1, N2. assert (a' ∈ A.*1) as Hin by (apply elem_of_list_fmap; by exists (a', e')).
          apply HA in Hin as (u & Hu & ->). destruct (Hs _ (bw_nv u Hu)); done.
        + destruct (Ed2_old _ _ Hu1) as (ue3 & Q1 & Q2 & _), (Ed2_old _ _ Hu2) as (ue4 & Q3 & Q4 & _).
          apply (eo_inj _ _ _ (vm_eok _ _ _ Hm) e e' p); unfold m_epair; [rewrite Q1|rewrite Q3]; cbn; congruence.
      - intros e a b H. destruct (Ed5 e) as [ue|] eqn:E1; [|done]. cbn in H. injection H as H.
        destruct (Ed5_cases _ _ E1) as [(c & Hc & ->)|(HA1 & ue1 & Hu1 & Hv1 & _)].
        + assert (c ∈ A.*1) as Hin by (apply elem_of_list_fmap; by exists (c, e)). apply HA in Hin as (u & Hu & ->). cbn in H. unfold sorted_2 in H.
          pose proof (vv_spoke O K K' F F4 v ρ coned4 u Hu) as Q. pose proof (spoke_vd O K K' F F4 v ρ coned4 u Hu) as [Hs1 Hs2].
          assert (vd (O ∪ K') (spoke ρ u)) as Hsv by (split; [by apply elem_of_union_r|done]).
          destruct (_ <? _)%N; injection H as <- <-.
          * exists (to_twin_edge (spoke ρ u)). rewrite vv5, vv_twin by done. rewrite Q. split; [by apply vd_twin|done].
          * exists (spoke ρ u). rewrite vv5, Q. done.
        + destruct (Ed2_out e ue1 a b Hu1) as (w & Hw & _ & Ep); [congruence|]. exists w. rewrite vv5, vv4_O by done. unfold pair2 in Ep. injection Ep as <- <-.
          split; [|done]. split; [apply elem_of_union_l, Hw|apply Hw].
      - intros e a b H. destruct (Ed5 e) as [ue|] eqn:E1; [|done]. cbn in H. injection H as H.
        destruct (Ed5_cases _ _ E1) as [(c & Hc & ->)|(HA1 & ue1 & Hu1 & Hv1 & _)].
        + assert (c ∈ A.*1) as Hin by (apply elem_of_list_fmap; by exists (c, e)). apply HA in Hin as (u & Hu & ->). cbn in H.
          pose proof (bw_nv u Hu) as Hn. unfold sorted_2 in H. destruct (N.ltb_spec v (q0 (vv F u))) as [Hlt|Hle].
          * assert (a = v ∧ b = q0 (vv F u)) as [-> ->] by (split; congruence). exact Hlt.
          * assert (b = v ∧ a = q0 (vv F u)) as [-> ->] by (split; congruence). apply N.le_neq. done.
        + destruct (Ed2_old _ _ Hu1) as (ue3 & Q1 & Q2 & _). apply (eo_sorted _ _ _ (vm_eok _ _ _ Hm) e). unfold m_epair. rewrite Q1. cbn. congruence.
    Qed.

    (** References of the vertices. *)
    Lemma K'_vert (x : N) : (∃ id, id ∈ K' ∧ x ∈ list4 (t_vs (F4 id))) ↔ (x = v ∧ ∃ u, bw u) ∨ ∃ u, bw u ∧ x = q0 (vv F u).
    Proof.
      assert (∀ u, bw u → x ∈ list4 (t_vs (F4 (ρ (side u)))) ↔ x ∈ list4 (vv F4 (mvd u))) as He.
      { intros u Hu. rewrite vv_elem by apply Hu. done. }
      split.
      - intros (id & Hid & Hx). apply K'_spec in Hid as (u & Hu & <-). apply (He u Hu) in Hx. rewrite (vvD O K K' F F4 v ρ coned4 u Hu) in Hx. apply elem_list4 in Hx.
        cbn [q0 q1 q2 q3] in Hx. destruct Hx as [->|[->|[->| ->]]]; [right|right|right|left; eauto].
        + eauto.
        + exists (to_nfe u). split; [by apply bw_nfe|]. by rewrite vv_nfe by apply Hu.
        + exists (to_pfe u). split; [by apply bw_pfe|]. by rewrite vv_pfe by apply Hu.
      - intros [[-> (u & Hu)]|(u & Hu & ->)]; exists (ρ (side u)); (split; [apply K'_spec; eauto|]); apply He; try done;
          rewrite (vvD O K K' F F4 v ρ coned4 u Hu); apply elem_list4; cbn [q0 q1 q2 q3]; tauto.
    Qed.
    Lemma l_K' (x : N) w : (x, w) ∈ l → vd (O ∪ K') w ∧ q0 (vv F4 w) = x ∧ ((x = v ∧ ∃ u, bw u) ∨ ∃ u, bw u ∧ x = q0 (vv F u)).
    Proof.
      intros Hin. destruct (cn_l _ _ _ _ _ _ _ _ _ Hcn x w Hin) as [[Hd ->]|[-> (w' & Hw' & ->)]].
      - apply dartsZ in Hd as (u & Hu & ->). rewrite vv3 by done. rewrite (vvD O K K' F F4 v ρ coned4 u Hu).
        pose proof (mvd_vd O K K' F F4 v ρ coned4 u Hu) as [H1 H2]. split; [split; [by apply elem_of_union_r|done]|]. split; [done|]. right. eauto.
      - assert (w' ∈ darts B') as Hd by (apply elem_darts; eauto). apply dartsZ in Hd as (u & Hu & ->).
        pose proof (mvd_vd O K K' F F4 v ρ coned4 u Hu) as [H1 H2]. split; [|split; [|left; eauto]].
        + apply vd_perm. split; [by apply elem_of_union_r|done].
        + rewrite vv_perm by done. rewrite (vvD O K K' F F4 v ρ coned4 u Hu). done.
    Qed.
    Lemma vrok5 : vrok (O ∪ K') F5 (λ x : N, v_tet <$> Vt4 (x : N)).
    Proof.
      intros x w Hx Hex. rewrite vv5. revert x w Hx Hex. 
      assert (vrok (O ∪ K') F4 (λ x : N, v_tet <$> Vt4 (x : N))) as HR.
      { apply (vrok_surgery O K K' F F4 (m_vref m)).
        - apply okF.
        - apply (co_vsO _ _ _ _ _ _ _ coned4).
        - rewrite OK_eq. apply Hm.
        - intros x w Hx Hin%K'_vert. unfold refd in Hx. destruct (Vt x) as [vt|] eqn:Evt; [|done]. cbn in Hx. injection Hx as Hx.
          assert (x ∈ l.*1) as Hl.
          { destruct Hin as [[-> (u & Hu)]|(u & Hu & ->)].
            - destruct (bw_done u Hu) as (w' & Hw' & _). exact (cn_v _ _ _ _ _ _ _ _ _ Hcn w' Hw').
            - rewrite <- vv3 by done. apply (cn_ref _ _ _ _ _ _ _ _ _ Hcn). apply dartsZ. eauto. }
          apply (last_ref_in l x (v_tet vt)) in Hl. rewrite Hx in Hl. destruct (l_K' x w Hl) as (H1 & H2 & _). done.
        - intros x w Hx HK HK'. unfold m_vref. unfold refd in Hx. destruct (Vt x) as [vt|] eqn:Evt; [|done]. cbn in Hx |- *.
          rewrite last_ref_out in Hx; [done|]. intros ((x' & w') & -> & Hin)%elem_of_list_fmap. destruct (l_K' _ _ Hin) as (_ & _ & Hq).
          apply K'_vert in Hq as (id & Hid & Hq). by apply (HK' id).
        - intros x id Hid Hx. destruct (decide (x ∈ (λ u, q0 (vv F u)) <$> darts B)) as [Hin|Hn].
          + left. apply K'_vert. right. apply elem_of_list_fmap in Hin as (u & -> & Hu%dartsB). eauto.
          + right. intros id1 Hid1 Hx1.
            assert (∀ (G : N → tet T) (i : N), x ∈ list4 (t_vs (G i)) → ∃ z, w_tet z = i ∧ w_edge z < 12 ∧ q0 (vv G z) = x) as Hz.
            { clear. intros G i H. unfold vv. apply elem_list4 in H. destruct H as [->|[->|[->| ->]]];
                [exists (Walker i 3)|exists (Walker i 2)|exists (Walker i 1)|exists (Walker i 0)]; (split; [done|]; split; [cbn; lia|done]). }
            destruct (Hz F id Hx) as (z & Ez1 & Ez2 & Ez3), (Hz F id1 Hx1) as (z1 & Ey1 & Ey2 & Ey3).
            apply (InsCross.star_cross O K F okF z1 z).
            * split; [rewrite Ey1; by apply elem_of_union_l|done].
            * split; [rewrite Ez1; by apply elem_of_union_r|done].
            * rewrite Ey1. intros H. exact (disj _ Hid1 H).
            * by rewrite Ez1.
            * congruence.
            * intros (u & Hu & Eu). apply Hn. apply elem_of_list_fmap. exists u. split; [congruence|by apply dartsB]. }
      intros x w Hx (w' & Hw' & Ew'). apply HR; [done|]. exists w'. by rewrite <- vv5.
    Qed.

    Lemma stage4 nt ne tm1 m4 : st nt ne (O ∪ K') F5 Ed5 Vt4 gf tm1 m4 →
      (m_track m = true → ∀ k, (k ∈ tkeys F E → tm1 !! k = None) ∧ (k ∉ tkeys F E → tm1 !! k = m_trimap m !! k)) →
      ∃ m5 tm5, trimap_insert_tets m4 (w_tet <$> B') = Some m5 ∧ st nt ne (O ∪ K') F5 Ed5 Vt4 gf tm5 m5 ∧ vmesh m5 (O ∪ K') F5.
    Proof.
      intros Hst Htm. assert (∀ id, id ∈ w_tet <$> B' ↔ id ∈ K') as HK by (intros id; by rewrite elem_of_list_to_set).
      destruct (trimap_insert_tets_st m4 (O ∪ K') F5 (w_tet <$> B')) as (tm5 & E5 & Htm5).
      { apply Hst. } { intros id Hid%HK. by apply elem_of_union_r. }
      assert (st nt ne (O ∪ K') F5 Ed5 Vt4 gf tm5 (with_trimap m4 tm5)) as S5. { destruct Hst. split; done. }
      exists (with_trimap m4 tm5), tm5. split; [done|]. split; [done|]. split; [apply S5|apply S5|apply S5|apply S5|..].
      - change (im_get (m_verts m4) GHOST = None). rewrite (st_V _ _ _ _ _ _ _ _ _ _ _ _ Hst). apply vt4_ghost.
      - apply vok5.
      - intros w Hw. rewrite vv5. change (m_verts (with_trimap m4 tm5)) with (m_verts m4). rewrite (st_V _ _ _ _ _ _ _ _ _ _ _ _ Hst). by apply vt4_ex.
      - destruct eok5 as [Q1 Q2 Q3 Q4]. assert (∀ e, m_epair (with_trimap m4 tm5) e = ue_vs <$> Ed5 e) as He.
        { intros e. unfold m_epair. change (m_edges (with_trimap m4 tm5)) with (m_edges m4). by rewrite (st_E _ _ _ _ _ _ _ _ _ _ _ _ Hst). }
        split.
        + intros w Hw. rewrite He. by apply Q1.
        + intros e e' p. rewrite !He. apply Q2.
        + intros e a b. rewrite He. apply Q3.
        + intros e a b. rewrite He. apply Q4.
      - intros x w Hx. unfold m_vref in Hx. change (m_verts (with_trimap m4 tm5)) with (m_verts m4) in Hx. rewrite (st_V _ _ _ _ _ _ _ _ _ _ _ _ Hst) in Hx. by apply vrok5.
      - intros Ht. change (m_track m4 = true) in Ht. assert (m_track m = true) as Ht' by (rewrite <- (st_tr _ _ _ _ _ _ _ _ _ _ _ _ Hst); done).
        change (tmok (O ∪ K') F5 tm5). apply (tmrel_ok O K K' F F5 (m_trimap m) tm5 E (w_tet <$> B')).
        + apply okF. + apply vok5. + apply disj. + apply disj3.
        + intros id Hid. destruct (sp_F _ _ _ _ _ _ _ Hsp id) as [-> _]. by apply (co_vsO _ _ _ _ _ _ _ coned4).
        + intros id. by rewrite elem_of_list_to_set.
        + exact HK.
        + rewrite OK_eq. by apply Hm.
        + exists tm1. split; [by apply Htm|]. rewrite <- (st_tm _ _ _ _ _ _ _ _ _ _ _ _ Hst). by apply Htm5.
    Qed.

    (** What the steps did to each part. *)
    Lemma same5 id : t_vs (F5 id) = t_vs (F4 id) ∧ t_opp (F5 id) = t_opp (F4 id) ∧ t_flags (F5 id) = t_flags (F4 id) ∧ t_val (F5 id) = t_val (F4 id).
    Proof. exact (sp_F _ _ _ _ _ _ _ Hsp id). Qed.
    Lemma kept5 id : id ∈ O → t_vs (F5 id) = t_vs (F id) ∧ t_flags (F5 id) = t_flags (F id) ∧ t_val (F5 id) = t_val (F id).
    Proof.
      intros Hid. destruct (same5 id) as (-> & _ & -> & ->). destruct (cn_O _ _ _ _ _ _ _ _ _ Hcn id Hid) as (-> & _ & -> & ->).
      destruct (ow_O _ _ _ _ _ _ Ho id Hid) as (-> & _ & -> & ->). done.
    Qed.
    Lemma uv5_O w : vd O w → uv F5 w = uv F w.
    Proof.
      intros Hw. assert (vd (O ∪ K') w) as Hw' by (split; [apply elem_of_union_l, Hw|apply Hw]).
      pose proof (vd_OK w Hw) as HwL. pose proof (Hvn _ HwL) as N0. pose proof (Hvn _ (vd_twin _ _ HwL)) as N1. rewrite vv_twin in N1 by apply Hw. cbn [q0] in N1.
      rewrite (sp_old _ _ _ _ _ _ _ Hsp w Hw'); [|by rewrite vv4_O..]. unfold uv. rewrite (jo_es _ _ _ _ _ _ _ Hj), (es3_O _ (proj1 Hw)). done.
    Qed.
    Lemma cone5 w w' : (w, w') ∈ Z → vv F5 w' = A4 (q0 (vv F w)) (q1 (vv F w)) (q2 (vv F w)) v ∧ t_val (F5 (w_tet w')) = t_val (F (w_tet w)) ∧
      f_boundary (t_flags (F5 (w_tet w'))) = false ∧ f_dup (t_flags (F5 (w_tet w'))) = false ∧ f_imm (t_flags (F5 (w_tet w'))) = f_imm (t_flags (F (w_tet w))) ∧
      f_limit (t_flags (F5 (w_tet w'))) = f_limit (t_flags (F (w_tet w))) ∧ f_notenc (t_flags (F5 (w_tet w'))) = f_notenc (t_flags (F (w_tet w))).
    Proof.
      intros Hz. pose proof (HB w (Zin _ _ Hz)) as Hw. pose proof (Zmvd _ _ Hz) as Em. destruct (same5 (w_tet w')) as (_ & _ & -> & ->).
      rewrite vv5. split; [rewrite Em; apply (vvD O K K' F F4 v ρ coned4 w Hw)|].
      assert (w' ∈ B') as Hw' by (apply elem_of_list_fmap; by exists (w, w')).
      destruct (cn_done _ _ _ _ _ _ _ _ _ Hcn w' Hw') as (_ & _ & -> & ->). destruct (ow_Z _ _ _ _ _ _ Ho _ _ Hz) as (_ & _ & _ & Ev & (_ & E1 & E2 & _ & E3)).
      unfold cone_t. cbn [t_val t_flags set_v set_locked set_flags set_tdup set_tbound f_boundary f_dup f_imm f_limit f_notenc]. done.
    Qed.
    Lemma lv5 z : vd (O ∪ K') z → lv F5 z = lv F4 z.
    Proof. intros _. apply se_lv. apply Hsp. Qed.
    Lemma locks5 z : vd (O ∪ K') z → lv F5 z = true → ∃ w, vd Lm w ∧ (w_tet w ∉ E ∨ bw w) ∧ tri3 (vv F w) = tri3 (vv F5 z) ∧ lv F w = true.
    Proof.
      intros Hz. rewrite lv5, vv5 by done. destruct Hz as [Hz1 Hz2]. apply elem_of_union in Hz1 as [HO|HK].
      - assert (vd O z) as HzO by done. assert (lv F4 z = lv F z) as ->. { unfold lv. by rewrite (co_lkO _ _ _ _ _ _ _ coned4 _ HO). }
        intros Hl. exists z. split; [by apply vd_OK|]. split; [left; set_solver|]. by rewrite vv4_O.
      - destruct (new_cases O K K' F F4 v ρ coned4 z) as (u & Hu & Hc); [done|]. pose proof (proj2 (proj1 Hu)) as He.
        assert (lv F4 (to_twin_edge (mvd u)) = false) as Hf by apply (co_lkI _ _ _ _ _ _ _ coned4 u Hu).
        assert (w_edge (to_twin_edge (mvd u)) < 12) as Het. { pose proof (mvd_twin_vd O K K' F F4 v ρ coned4 u Hu) as H. apply H. }
        destruct Hc as [->|[->|[->| ->]]].
        + rewrite (co_lkD _ _ _ _ _ _ _ coned4 u Hu). intros Hl. exists u. split; [by apply bw_L|]. split; [by right|].
          rewrite (vvD O K K' F F4 v ρ coned4 u Hu). done.
        + by rewrite Hf.
        + rewrite lv_nfe by done. by rewrite Hf.
        + rewrite lv_pfe by done. by rewrite Hf.
    Qed.
    Lemma locks5' w : vd Lm w → (w_tet w ∉ E ∨ bw w) → lv F w = true → ∃ z, vd (O ∪ K') z ∧ tri3 (vv F5 z) = tri3 (vv F w) ∧ lv F5 z = true.
    Proof.
      intros HwL Hc Hl. destruct (decide (w_tet w ∈ E)) as [HE|HE].
      - destruct Hc as [?|Hw]; [done|]. pose proof (mvd_vd O K K' F F4 v ρ coned4 w Hw) as [H1 H2]. exists (mvd w).
        assert (vd (O ∪ K') (mvd w)) as Hv' by (split; [by apply elem_of_union_r|done]). split; [done|].
        rewrite lv5, vv5, (vvD O K K' F F4 v ρ coned4 w Hw), (co_lkD _ _ _ _ _ _ _ coned4 w Hw) by done. done.
      - assert (vd O w) as HO. { split; [|apply HwL]. apply elem_of_difference. split; [apply HwL|by rewrite elem_of_list_to_set]. }
        exists w. assert (vd (O ∪ K') w) as Hv' by (split; [apply elem_of_union_l, HO|apply HO]). split; [done|]. rewrite lv5, vv5, vv4_O by done. split; [done|].
        unfold lv. rewrite (co_lkO _ _ _ _ _ _ _ coned4 _ (proj1 HO)). done.
    Qed.
    Lemma Ed5_rest e ue : Ed5 e = Some ue → ue_boundary ue = false ∧ w_tet (ue_bw ue) = invalid_id.
    Proof.
      intros H. destruct (Ed5_cases _ _ H) as [(a & _ & ->)|(HeA & ue2 & Hu2 & _)]; [done|].
      rewrite (sp_E _ _ _ _ _ _ _ Hsp e HeA) in H. split.
      - rewrite (cn_b _ _ _ _ _ _ _ _ _ Hcn e ue H). destruct (decide (e ∈ uv F3 <$> darts B')) as [Hin|Hn]; [done|].
        unfold isb. rewrite Hu2. destruct (ue_boundary ue2) eqn:Eb; [|done]. exfalso. apply (Ed2_b _ _ Hu2) in Eb. apply Hn.
        apply elem_of_list_fmap in Eb as (u & -> & Hu%dartsB). apply elem_of_list_fmap. exists (mvd u). split; [by rewrite uv3|]. apply dartsZ. eauto.
      - apply (jo_none _ _ _ _ _ _ _ Hj e ue H). intros d Hd _. destruct (M_tot d Hd) as (d' & Hd'). exists d'. split; [apply Hd'|done].
    Qed.
  End stage2.

  (** ** All together. *)
  Record outcome (m' : mesh V T) (Z : list (walker * walker)) (F' : N → tet T) (Ed' : N → option uedge) (Vt' : N → option (vertex V)) (A : list (N * N)) : Prop := Outcome {
    oc_mesh : vmesh m' (O ∪ list_to_set (w_tet <$> Z.*2)) F';
    oc_Z : Z.*1 = B;
    oc_nodup : NoDup (w_tet <$> Z.*2);
    oc_disj : O ## list_to_set (w_tet <$> Z.*2);
    oc_vd w' : w' ∈ Z.*2 → w_edge w' < 12;
    oc_E e : im_get (m_edges m') e = Ed' e;
    oc_V (x : N) : im_get (m_verts m') x = Vt' x;
    oc_Vt (x : N) : ∃ f, Vt' x = (λ vt, vset (f vt) vt) <$> Vt x;
    oc_rest : m_ghost_flags m' = gf ∧ m_track m' = m_track m ∧ m_center m' = m_center m ∧ im_npi (m_verts m') = im_npi (m_verts m);
    oc_room : (im_npi (m_tets m') ≤ im_npi (m_tets m) + N.of_nat (length B))%N ∧ (im_npi (m_edges m') ≤ im_npi (m_edges m) + N.of_nat (3 * length B))%N;
    oc_kept id : id ∈ O → t_vs (F' id) = t_vs (F id) ∧ t_flags (F' id) = t_flags (F id) ∧ t_val (F' id) = t_val (F id);
    oc_uv w : vd O w → uv F' w = uv F w;
    oc_cone w w' : (w, w') ∈ Z → vv F' w' = A4 (q0 (vv F w)) (q1 (vv F w)) (q2 (vv F w)) v ∧ t_val (F' (w_tet w')) = t_val (F (w_tet w)) ∧
      f_boundary (t_flags (F' (w_tet w'))) = false ∧ f_dup (t_flags (F' (w_tet w'))) = false ∧ f_imm (t_flags (F' (w_tet w'))) = f_imm (t_flags (F (w_tet w))) ∧
      f_limit (t_flags (F' (w_tet w'))) = f_limit (t_flags (F (w_tet w))) ∧ f_notenc (t_flags (F' (w_tet w'))) = f_notenc (t_flags (F (w_tet w)));
    oc_locks z : vd (O ∪ list_to_set (w_tet <$> Z.*2)) z → lv F' z = true → ∃ w, vd Lm w ∧ (w_tet w ∉ E ∨ bw w) ∧ tri3 (vv F w) = tri3 (vv F' z) ∧ lv F w = true;
    oc_locks' w : vd Lm w → (w_tet w ∉ E ∨ bw w) → lv F w = true → ∃ z, vd (O ∪ list_to_set (w_tet <$> Z.*2)) z ∧ tri3 (vv F' z) = tri3 (vv F w) ∧ lv F' z = true;
    oc_idle e ue : Ed' e = Some ue → ue_boundary ue = false ∧ w_tet (ue_bw ue) = invalid_id;
    oc_old w : vd O w → (λ ue, (ue_vs ue, ue_locked ue)) <$> Ed' (uv F w) = (λ ue, (ue_vs ue, ue_locked ue)) <$> Ed (uv F w);
    oc_edges e ue : Ed' e = Some ue → (∃ a, (a, e) ∈ A ∧ ue = uedge_new (a, v)) ∨ (∃ w, vd O w ∧ uv F w = e);
    oc_spokes a : a ∈ A.*1 ↔ ∃ u, bw u ∧ a = q0 (vv F u);
    oc_spoke a e : (a, e) ∈ A → Ed' e = Some (uedge_new (a, v)) }.

  Lemma ins_run : ∃ m' Z F' Ed' Vt' A, flip_in_vertex_unchecked m v B E = Some (m', Z.*2) ∧ outcome m' Z F' Ed' Vt' A.
  Proof.
    destruct stage1 as (m1 & tm1 & Z & L3 & F3 & E1 & HZ & S1 & Ho & Htm).
    assert (∀ id, id ∈ L3 → id ≠ invalid_id) as Hinv.
    { intros id Hid ->. pose proof (st_bound _ _ _ _ _ _ _ _ _ _ _ _ _ S1 Hid). lia. }
    destruct (stage2 Z L3 F3 HZ Ho Hinv _ _ _ S1) as (m2 & F4 & Ed4 & l & E2 & S2 & Hj & Hcn).
    destruct (stage3 Z L3 F3 HZ Ho Hinv F4 Ed4 l Hj Hcn _ _ _ S2) as (m3 & m4 & A & F5 & Ed5 & E3 & E4 & S4 & Hsp & HA).
    destruct (stage4 Z L3 F3 HZ Ho Hinv F4 Ed4 l Hj Hcn A F5 Ed5 Hsp HA _ _ _ _ S4 Htm) as (m5 & tm5 & E5 & S5 & Hm5).
    exists m5, Z, F5, Ed5, (refd Vt l), A. split.
    { unfold flip_in_vertex_unchecked. destruct (trimap_remove_tets m E) as [k0|]; [|done]. cbn [mbind option_bind] in *.
      destruct (mfoldl mark_tri B k0) as [k1|]; [|done]. cbn [mbind option_bind] in *. destruct (mfoldl purge_tet E k1) as [k2|]; [|done]. cbn [mbind option_bind] in *.
      rewrite E1. cbn [mbind option_bind]. rewrite E2. cbn [mbind option_bind]. rewrite E3. cbn [mbind option_bind]. rewrite E4. cbn [mbind option_bind]. rewrite E5. done. }
    assert (∀ w, vd O w → is_Some (Ed2 (uv F w))) as Hke by apply kept_edge.
    split.
    - exact Hm5.
    - exact HZ.
    - exact (ow_nodup _ _ _ _ _ _ Ho).
    - eapply disj3; eassumption.
    - intros w' Hw'. assert (w' ∈ darts Z.*2) as Hd by (apply elem_darts; eauto). eapply dartsZ in Hd as (u & Hu & ->); [|eassumption..]. apply Hu.
    - apply (st_E _ _ _ _ _ _ _ _ _ _ _ _ S5).
    - apply (st_V _ _ _ _ _ _ _ _ _ _ _ _ S5).
    - intros x. exists (λ vt, last_ref l x (v_tet vt)). done.
    - destruct S5. done.
    - destruct S5. done.
    - intros id Hid. eapply kept5; eassumption.
    - intros w Hw. eapply uv5_O; eassumption.
    - intros w w' Hz. eapply cone5; eassumption.
    - intros z Hz Hlz. eapply locks5; eassumption.
    - intros w Hw Hc Hlw. eapply locks5'; eassumption.
    - intros e ue He. eapply Ed5_rest; eassumption.
    - intros w Hw. destruct (Hke w Hw) as [ue Hue]. rewrite (Ed5_old Z F3 F4 Ed4 l Hcn A F5 Ed5 Hsp).
      + destruct (Ed2_old _ _ Hue) as (ue0 & -> & Q1 & Q2 & _). rewrite Hue. cbn. by rewrite Q1, Q2.
      + eapply Ed2_A; [eassumption..|by exists ue].
    - intros e ue He. destruct (Ed5_cases Z F3 F4 Ed4 l Hcn A F5 Ed5 Hsp e ue He) as [?|(_ & ue2 & Hu2 & _)]; [by left|right].
      destruct (ue_vs ue2) as [a b] eqn:Ev. destruct (Ed2_out e ue2 a b Hu2 Ev) as (w & Hw & Ew & _). eauto.
    - exact HA.
    - intros a e Hin. apply (sp_fresh _ _ _ _ _ _ _ Hsp a e Hin).
  Qed.
End run.
