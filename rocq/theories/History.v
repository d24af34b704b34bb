(** Consistency survives any history of admissible operations. *)
From stdpp Require Import base numbers list gmap option relations fin_sets.
From Coq Require Import NArith ZArith ZifyN ZifyNat ZifyBool Lia.
From Verif Require Import IdMapModel IdMapSpec IdMapProofs IdMapMore WalkerModel WalkerSpec WalkerProofs SortProofs
  MeshModel WalkerMore MeshOps MeshSpec MeshViews Surgery MeshLink MeshRun FlipBase FlipRun FlipSpec FlipCommon
  Flip14Ok Flip23Ok Flip32Ok MeshCheck Flip44Ok MeshOpsOk Integrity HistSpec.
Local Open Scope nat_scope.

Section history.
  Context {V T : Type}.
  Implicit Types (m : mesh V T) (F G : N → tet T) (w : walker) (L O K : gset N) (id : N).

  Lemma attached_vs m v : attached m v ↔ ∃ id t, tet_get m id = Some t ∧ v ∈ list4 (t_vs t).
  Proof.
    split.
    - intros (w & [[t Ht] He] & Hf). exists (w_tet w), t. split; [done|].
      unfold w_first in Hf. rewrite Ht in Hf. cbn in Hf. apply (inj Some) in Hf. subst v.
      assert (vv (λ _, t) w = verts_at (t_vs t) (w_edge w)) as E by done.
      rewrite <- (vv_elem (λ _, t) w) by done. rewrite elem_list4. left. done.
    - intros (id & t & Ht & Hv). destruct (first_of_tet (λ _, t) id v Hv) as (w & E1 & Hw & E2).
      exists w. split; [split; [rewrite E1; eauto|done]|]. unfold w_first. rewrite E1, Ht. cbn. by f_equal.
  Qed.

  Lemma attached_replaces m m' old new ea ed v : replaces m m' old new ea ed →
    (∀ id t x, id ∈ old → tet_get m id = Some t → x ∈ list4 (t_vs t) →
       ∃ id' vs, (id', vs) ∈ new ∧ x ∈ list4 vs) →
    attached m v → attached m' v.
  Proof.
    intros Hr Hold (id & t & Ht & Hv)%attached_vs. apply attached_vs.
    destruct (decide (id ∈ old)) as [Hin|Hin].
    - destruct (Hold id t v Hin Ht Hv) as (id' & vs & Hn & Hx).
      pose proof (rp_new _ _ _ _ _ _ Hr id' vs Hn) as E. destruct (tet_get m' id') as [t'|] eqn:E'; [|done].
      cbn in E. apply (inj Some) in E. subst vs. eauto.
    - assert (id ∉ new.*1) as Hn.
      { intros Hn. rewrite (rp_fresh _ _ _ _ _ _ Hr id Hn Hin) in Ht. done. }
      pose proof (rp_out _ _ _ _ _ _ Hr id Hin Hn) as E. rewrite Ht in E.
      destruct (tet_get m' id) as [t'|] eqn:E'; [|done]. cbn in E. apply (inj Some) in E.
      injection E as E _ _ _. exists id, t'. split; [done|]. by rewrite E.
  Qed.

  Lemma wverts_tet m w vs t : valid m w → w_verts m w = Some vs → tet_get m (w_tet w) = Some t →
    ∀ x, x ∈ list4 (t_vs t) → x ∈ list4 vs.
  Proof.
    intros Hw E Ht x Hx. destruct (wverts_in m w vs Hw E) as (vs' & E1 & E2). unfold vs_of in E1.
    rewrite Ht in E1. apply (inj Some) in E1. subst vs'. by apply E2.
  Qed.

  Definition all_attached m : Prop := ∀ v, is_Some (im_get (m_verts m) v) → attached m v.

  (** What every operation guarantees. *)
  Record good_step m m' : Prop := GoodStep {
    gs_ok : mesh_ok m';
    gs_room : (im_npi (m_tets m) ≤ invalid_id → im_npi (m_tets m') ≤ invalid_id)%N;
    gs_att v : attached m v → attached m' v }.

  Lemma is_Some_fmap_eq {A B} (f f' : A → B) (x y : option A) : f <$> x = f' <$> y → (is_Some x ↔ is_Some y).
  Proof. destruct x, y; cbn; intros H; try done; split; eauto. Qed.
  Lemma replaces_verts m m' old new ea ed v : replaces m m' old new ea ed →
    is_Some (im_get (m_verts m') v) ↔ is_Some (im_get (m_verts m) v).
  Proof. intros H. eapply is_Some_fmap_eq, (rp_verts _ _ _ _ _ _ H v). Qed.

  Lemma roomy_id m nt ne : roomy m nt ne → id_room m (1 + nt) ne.
  Proof. intros [H1 H2]. split; [|done]. clear H2. unfold invalid_id in H1. unfold u32_mod in *. lia. Qed.
  Lemma room_weaken m nt ne nt' ne' : id_room m nt ne → (nt' ≤ nt)%N → (ne' ≤ ne)%N → id_room m nt' ne'.
  Proof. intros [H1 H2] ??. split; lia. Qed.
  Lemma room_invalid m ne : id_room m 1 ne → (im_npi (m_tets m) ≤ invalid_id)%N.
  Proof. intros [H1 _]. unfold invalid_id, u32_mod in *. lia. Qed.

  Ltac inl := rewrite ?elem_list4, ?elem_of_cons, ?elem_of_nil in *; cbn [q0 q1 q2 q3] in *.

  Lemma step14 m w v : mesh_ok m → valid m w → canonical_start m w → roomy m 3 4 →
    is_Some (im_get (m_verts m) v) → ¬ attached m v →
    ∃ m' ws, flip14_unchecked m w v = Some (m', ws) ∧ flip14_spec m w v m' ws ∧ good_step m m' ∧ attached m' v ∧
      (∀ x, is_Some (im_get (m_verts m') x) ↔ is_Some (im_get (m_verts m) x)).
  Proof.
    intros Hok Hw Hc Hr Hv Hn. apply roomy_id in Hr.
    destruct (flip14_step m w v Hok Hw Hv Hn) as (m' & ws & E & Hs & Hok'); [by eapply room_weaken|].
    exists m', ws. split; [done|]. split; [done|].
    assert (mesh_ok m') as Hok2.
    { apply Hok'. rewrite Hc. unfold w_first, walker_from_tet_id. cbn [w_tet w_edge].
      destruct (tet_get m (w_tet w)); done. }
    destruct (fs14_repl _ _ _ _ _ Hs) as (a & b & c & d & id1 & id2 & id3 & E0 & Hnd & Ews & Hrep).
    split; [split|split].
    - done.
    - intros _. apply (room_invalid m' 0), (fs14_room _ _ _ _ _ Hs). by eapply room_weaken.
    - intros x. apply (attached_replaces _ _ _ _ _ _ _ Hrep). intros id t y Hid Ht Hy.
      apply elem_of_list_singleton in Hid. subst id. rewrite Ht in E0. cbn in E0. apply (inj Some) in E0.
      rewrite E0 in Hy. apply elem_list4 in Hy. cbn [q0 q1 q2 q3] in Hy. destruct Hy as [->|Hy].
      + exists id1, (A4 a v c d). split; [by right; left|]. apply elem_list4. by left.
      + exists (w_tet w), (A4 v b c d). split; [by left|]. apply elem_list4. by right.
    - destruct (fs14_walkers _ _ _ _ _ Hs 0) as (_ & H4 & Hvd); [lia|].
      destruct (wverts_ex m' _ Hvd) as (x0 & x1 & x2 & x3 & Ev). pose proof (wverts_fourth _ _ _ _ _ _ Ev) as E4.
      rewrite H4 in E4. apply (inj Some) in E4. subst x3.
      exists (to_twin_edge (to_opp_edge (get4 ws 0))). split; [by apply valid_twin, valid_opp|].
      eapply wverts_first, wverts_twin; [by apply valid_opp|]. by apply wverts_opp.
    - intros x. eapply replaces_verts, Hrep.
  Qed.

  Lemma step23 m w : mesh_ok m → flip23_ready m w → roomy m 1 1 →
    ∃ m' ws a b c d e other id2, flip23_unchecked m w = Some (m', ws) ∧
      flip23_spec m w m' ws a b c d e other id2 ∧ good_step m m' ∧
      (∀ x, is_Some (im_get (m_verts m') x) ↔ is_Some (im_get (m_verts m) x)).
  Proof.
    intros Hok (Hw & other & d & e & Ho & Ed & Ee & Hde & Hj) Hr. apply roomy_id in Hr.
    destruct (wverts_ex m w Hw) as (a & b & c & d' & Ev).
    assert (d' = d) as -> by (pose proof (wverts_fourth _ _ _ _ _ _ Ev); congruence).
    destruct (flip23_step m w other a b c d e Hok Hw Ev Ho Ee Hde Hj) as (m' & ws & id2 & E & Hs & Hok'); [by eapply room_weaken|].
    exists m', ws, a, b, c, d, e, other, id2. split; [done|]. split; [done|].
    pose proof (fs23_repl _ _ _ _ _ _ _ _ _ _ _ Hs) as Hrep. split; [split|].
    - done.
    - intros _. apply (room_invalid m' 0), (fs23_room _ _ _ _ _ _ _ _ _ _ _ Hs). by eapply room_weaken.
    - intros x. apply (attached_replaces _ _ _ _ _ _ _ Hrep). intros id t y Hid Ht Hy.
      destruct (adj_info m w other a b c d Hok Hw Ev Ho) as (Hvo & _ & _).
      assert (y ∈ [a; b; c; d; e]) as Hin.
      { rewrite !elem_of_cons, elem_of_nil in Hid. destruct Hid as [-> | [-> | []]].
        - apply (wverts_tet m w _ t Hw Ev Ht) in Hy. inl. tauto.
        - apply (wverts_tet m other _ t Hvo (proj2 (fs23_other _ _ _ _ _ _ _ _ _ _ _ Hs)) Ht) in Hy. inl. tauto. }
      destruct (decide (y = c)) as [->|Hyc].
      + exists (w_tet other), (A4 a c d e). split; [by right; left|]. apply elem_list4. cbn. tauto.
      + exists (w_tet w), (A4 b a d e). split; [by left|]. inl. tauto.
    - intros x. eapply replaces_verts, Hrep.
  Qed.

  Lemma step32 m w : mesh_ok m → flip32_ready m w →
    ∃ m' ws p q x y z o1 o2, flip32_unchecked m w = Some (m', ws) ∧
      flip32_spec m w m' ws p q x y z o1 o2 ∧ good_step m m' ∧
      (∀ x, is_Some (im_get (m_verts m') x) ↔ is_Some (im_get (m_verts m) x)).
  Proof.
    intros Hok (Hw & (o1 & o2 & R1 & R2 & R3) & (o1' & x & y & z & R1' & Exy & Ez & Hf)).
    rewrite R1 in R1'. injection R1' as <-.
    destruct (wverts_ex m w Hw) as (p & q & x' & y' & Ev).
    assert (x' = x ∧ y' = y) as [-> ->].
    { destruct (walker_accessors m w p q x' y' Ev) as (_&_&E3&E4&_). unfold w_opp_pair in Exy.
      rewrite E3, E4 in Exy. cbn in Exy. injection Exy as -> ->. done. }
    destruct (flip32_step m w o1 o2 p q x y z Hok Hw Ev R1 Ez R2 R3 Hf) as (m' & ws & E & Hs & Hok').
    exists m', ws, p, q, x, y, z, o1, o2. split; [done|]. split; [done|].
    pose proof (fs32_repl _ _ _ _ _ _ _ _ _ _ _ Hs) as Hrep. split; [split|].
    - done.
    - destruct (fs32_room _ _ _ _ _ _ _ _ _ _ _ Hs) as [-> _]. done.
    - intros v. apply (attached_replaces _ _ _ _ _ _ _ Hrep). intros id t u Hid Ht Hu.
      destruct (ring_info m w o1 _ _ _ _ Hok Hw Ev R1) as (V1 & _).
      pose proof (proj2 (fs32_other1 _ _ _ _ _ _ _ _ _ _ _ Hs)) as E1.
      destruct (ring_info m o1 o2 _ _ _ _ Hok V1 E1 R2) as (V2 & _).
      pose proof (proj2 (fs32_other2 _ _ _ _ _ _ _ _ _ _ _ Hs)) as E2.
      assert (u ∈ [p; q; x; y; z]) as Hin.
      { rewrite !elem_of_cons, elem_of_nil in Hid. destruct Hid as [-> | [-> | [-> | []]]].
        - apply (wverts_tet m w _ t Hw Ev Ht) in Hu. inl. tauto.
        - apply (wverts_tet m o1 _ t V1 E1 Ht) in Hu. inl. tauto.
        - apply (wverts_tet m o2 _ t V2 E2 Ht) in Hu. inl. tauto. }
      destruct (decide (u = q)) as [->|Huq].
      + exists (w_tet o1), (A4 x y z q). split; [by right; left|]. inl. tauto.
      + exists (w_tet w), (A4 y x z p). split; [by left|]. inl. tauto.
    - intros v. eapply replaces_verts, Hrep.
  Qed.

  Lemma step44 m w : mesh_ok m → flip44_ready m w → roomy m 1 1 →
    ∃ m' ws p q x y z u r1 r2 r3, flip44_unchecked m w = Some (m', ws) ∧
      flip44_spec m w m' ws p q x y z u r1 r2 r3 ∧ good_step m m' ∧
      (∀ x, is_Some (im_get (m_verts m') x) ↔ is_Some (im_get (m_verts m) x)).
  Proof.
    intros Hok (Hw & r1 & r2 & r3 & x & z & R1 & R2 & R3 & R4 & Hne & Ex & Ez & Hj) Hr. apply roomy_id in Hr.
    destruct (wverts_ex m w Hw) as (p & q & x' & y & Ev).
    assert (x' = x) as ->.
    { destruct (walker_accessors m w p q x' y Ev) as (_&_&E3&E4&_). congruence. }
    destruct (flip44_step m w r1 r2 r3 p q x y z Hok Hw Ev R1 R2 R3 R4 Hne Ez Hj) as (m' & ws & u & E & Hs & Hok'); [by eapply room_weaken|].
    exists m', ws, p, q, x, y, z, u, r1, r2, r3. split; [done|]. split; [done|].
    destruct (fs44_repl _ _ _ _ _ _ _ _ _ _ _ _ _ Hs) as (id' & _ & Hrep). split; [split|].
    - done.
    - intros _. apply (room_invalid m' 0), (fs44_room _ _ _ _ _ _ _ _ _ _ _ _ _ Hs). by eapply room_weaken.
    - intros v. apply (attached_replaces _ _ _ _ _ _ _ Hrep). intros id t y' Hid Ht Hy.
      destruct (ring_info m w r1 _ _ _ _ Hok Hw Ev R1) as (V1 & _).
      destruct (fs44_ring _ _ _ _ _ _ _ _ _ _ _ _ _ Hs) as (_ & E1 & E2 & E3).
      destruct (ring_info m r1 r2 _ _ _ _ Hok V1 E1 R2) as (V2 & _).
      destruct (ring_info m r2 r3 _ _ _ _ Hok V2 E2 R3) as (V3 & _).
      assert (y' ∈ [p; q; x; y; z; u]) as Hin.
      { rewrite !elem_of_cons, elem_of_nil in Hid. destruct Hid as [-> | [-> | [-> | [-> | []]]]].
        - apply (wverts_tet m w _ t Hw Ev Ht) in Hy. inl. tauto.
        - apply (wverts_tet m r1 _ t V1 E1 Ht) in Hy. inl. tauto.
        - apply (wverts_tet m r2 _ t V2 E2 Ht) in Hy. inl. tauto.
        - apply (wverts_tet m r3 _ t V3 E3 Ht) in Hy. inl. tauto. }
      destruct (decide (y' = q ∨ y' = y ∨ y' = x ∨ y' = z)) as [Hy1|Hy1].
      + exists (w_tet r1), (A4 q y x z). split; [by right; left|]. inl. tauto.
      + exists (w_tet r3), (A4 z x u p). split; [by right; right; right; left|]. inl. tauto.
    - intros v. eapply replaces_verts, Hrep.
  Qed.

  (** ** The variants that refuse to remove locked triangles and edges. *)
  Lemma locked_ex m w : valid m w → ∃ b, w_locked m w = Some b.
  Proof. intros [[t Ht] _]. unfold w_locked. rewrite Ht. cbn. eauto. Qed.

  Lemma flip23_unlocked_cases m w : valid m w →
    (w_locked m w = Some true ∧ flip23_unlocked m w = Some (m, None)) ∨
    (w_locked m w = Some false ∧
       flip23_unlocked m w = '(m', ws) ← flip23_unchecked m w; Some (m', Some ws)).
  Proof. intros Hw. destruct (locked_ex m w Hw) as [[] E]; [left|right]; unfold flip23_unlocked; by rewrite E. Qed.

  Lemma ring_ex m w : mesh_ok m → valid m w → ∃ w', ring_next m w = Some w' ∧ valid m w'.
  Proof.
    intros Hok Hw. destruct (wverts_ex m w Hw) as (p & q & x & y & E).
    destruct (ok_adj m Hok (to_twin_edge w) q p y x) as (u & z & H1 & _); [by apply valid_twin|by apply wverts_twin|].
    exists u. split; [done|]. eapply ring_info; done.
  Qed.

  Lemma flip32_unlocked_cases m w : mesh_ok m → valid m w →
    ((¬ ring3 m w ∨ edge_star_locked m w) ∧ flip32_unlocked m w = Some (m, None)) ∨
    (ring3 m w ∧ ¬ edge_star_locked m w ∧
       flip32_unlocked m w = '(m', ws) ← flip32_unchecked m w; Some (m', Some ws)).
  Proof.
    intros Hok Hw. destruct (ring_ex m w Hok Hw) as (o1 & R1 & V1). destruct (ring_ex m o1 Hok V1) as (o2 & R2 & V2).
    destruct (ring_ex m o2 Hok V2) as (o3 & R3 & V3).
    destruct (locked_ex m w Hw) as [l0 L0]. destruct (locked_ex m o1 V1) as [l1 L1]. destruct (locked_ex m o2 V2) as [l2 L2].
    destruct (wverts_ex m w Hw) as (p & q & x & y & E).
    destruct (ok_edge m Hok w p q Hw) as (e & ue & U1 & U2 & _); [by apply (walker_accessors m w p q x y)|].
    unfold flip32_unlocked. rewrite R1. cbn [mbind option_bind]. rewrite R2. cbn [mbind option_bind].
    rewrite L0. cbn [mbind option_bind]. rewrite L1. cbn [mbind option_bind]. rewrite L2. cbn [mbind option_bind].
    rewrite U1. cbn [mbind option_bind]. rewrite U2. cbn [mbind option_bind]. rewrite R3. cbn [mbind option_bind].
    assert (edge_star_locked m w ↔ l0 || l1 || l2 || ue_locked ue = true) as Hst.
    { unfold edge_star_locked, w_edge_locked. split.
      - intros (p1 & p2 & A1 & A2 & A3). rewrite R1 in A1. injection A1 as <-. rewrite R2 in A2. injection A2 as <-.
        rewrite L0, L1, L2, U1 in A3. cbn [mbind option_bind] in A3. rewrite U2 in A3. cbn in A3.
        destruct A3 as [A3|[A3|[A3|A3]]]; apply (inj Some) in A3; rewrite A3; by rewrite ?orb_true_r.
      - intros H. exists o1, o2. split; [done|]. split; [done|]. rewrite L0, L1, L2, U1. cbn [mbind option_bind]. rewrite U2.
        cbn. rewrite !orb_true_iff in H. destruct H as [[[->| ->]| ->]| ->]; tauto. }
    assert (ring3 m w ↔ o3 = w) as Hr.
    { unfold ring3. split.
      - intros (p1 & p2 & A1 & A2 & A3). rewrite R1 in A1. injection A1 as <-. rewrite R2 in A2. injection A2 as <-. congruence.
      - intros ->. eauto. }
    destruct (l0 || l1 || l2 || ue_locked ue) eqn:El.
    - left. split; [|done]. right. by apply Hst.
    - case_bool_decide as Ho; cbn [orb negb].
      + right. split; [by apply Hr|]. split; [|done]. rewrite Hst. done.
      + left. split; [|done]. left. by rewrite Hr.
  Qed.

  (** ** One step. *)
  Lemma valid_tets m m' w : m_tets m' = m_tets m → valid m' w ↔ valid m w.
  Proof. intros E. unfold valid, tet_get. by rewrite E. Qed.
  Lemma attached_tets m m' v : m_tets m' = m_tets m → attached m' v ↔ attached m v.
  Proof. intros E. unfold attached, valid, w_first, tet_get. by rewrite E. Qed.

  Lemma no_flags_att m m' v : (∀ id, no_flags <$> tet_get m' id = no_flags <$> tet_get m id) → attached m v → attached m' v.
  Proof.
    intros H (id & t & Ht & Hv)%attached_vs. apply attached_vs. specialize (H id). rewrite Ht in H.
    destruct (tet_get m' id) as [t'|] eqn:E; [|done]. cbn in H. apply (inj Some) in H.
    exists id, t'. split; [done|]. replace (t_vs t') with (t_vs t); [done|]. unfold no_flags in H. by injection H.
  Qed.

  Lemma op_step m o : mesh_ok m → admissible m o →
    ∃ m', run_op m o = Some m' ∧ good_step m m' ∧ (is_add o = false → all_attached m → all_attached m').
  Proof.
    intros Hok Ha. destruct o as [p v|w p v|w v|w|w|w|w|w|b|w b|w b]; cbn [run_op admissible is_add] in *.
    - destruct (add_vertex_step m p v Hok Ha) as (m' & id & -> & Hok' & _ & _ & _ & _ & _ & _ & _ & Et & _).
      exists m'. split; [done|]. split; [|done]. split; [done|by rewrite Et|]. intros x. by apply attached_tets.
    - destruct Ha as (Hn & Hw & Hc & Hr).
      destruct (add_vertex_step m p v Hok Hn) as (m1 & id & -> & Hok1 & Hf & Hna & Hng & Hid & Hoth & _ & Ee & Et & _).
      destruct (step14 m1 w id) as (m' & ws & -> & Hs & Hg & Hatt & Hvs); [done| | | | |done|].
      + by apply (valid_tets _ _ _ Et).
      + revert Hc. unfold canonical_start, w_first, tet_get. by rewrite Et.
      + revert Hr. unfold roomy. by rewrite Et, Ee.
      + by rewrite Hid.
      + exists m'. split; [done|]. destruct Hg as [G1 G2 G3]. split; [split|].
        * done.
        * by rewrite <- Et.
        * intros x Hx. apply G3. by apply (attached_tets _ _ _ Et).
        * intros _ Hall x Hx. apply Hvs in Hx. destruct (decide (x = id)) as [->|Hxd]; [done|].
          rewrite Hoth in Hx by done. apply G3, (attached_tets _ _ _ Et), Hall, Hx.
    - destruct Ha as (Hw & Hc & Hr & Hv & Hna).
      destruct (step14 m w v Hok Hw Hc Hr Hv Hna) as (m' & ws & -> & Hs & Hg & Hatt & Hvs).
      exists m'. split; [done|]. split; [done|]. intros _ Hall x Hx. apply (gs_att _ _ Hg), Hall, Hvs, Hx.
    - destruct Ha as [Ha Hr]. destruct (step23 m w Hok Ha Hr) as (m' & ws & a & b & c & d & e & o & id2 & -> & Hs & Hg & Hvs).
      exists m'. split; [done|]. split; [done|]. intros _ Hall x Hx. apply (gs_att _ _ Hg), Hall, Hvs, Hx.
    - destruct (step32 m w Hok Ha) as (m' & ws & p & q & x & y & z & o1 & o2 & -> & Hs & Hg & Hvs).
      exists m'. split; [done|]. split; [done|]. intros _ Hall v Hv. apply (gs_att _ _ Hg), Hall, Hvs, Hv.
    - destruct Ha as [Ha Hr].
      destruct (step44 m w Hok Ha Hr) as (m' & ws & p & q & x & y & z & u & r1 & r2 & r3 & -> & Hs & Hg & Hvs).
      exists m'. split; [done|]. split; [done|]. intros _ Hall v Hv. apply (gs_att _ _ Hg), Hall, Hvs, Hv.
    - destruct Ha as [Hw Ha]. destruct (flip23_unlocked_cases m w Hw) as [[_ ->]|[Hl ->]].
      + exists m. split; [done|]. by split.
      + destruct (Ha Hl) as [Ha' Hr]. destruct (step23 m w Hok Ha' Hr) as (m' & ws & a & b & c & d & e & o & id2 & -> & Hs & Hg & Hvs).
        exists m'. split; [done|]. split; [done|]. intros _ Hall x Hx. apply (gs_att _ _ Hg), Hall, Hvs, Hx.
    - destruct Ha as [Hw Ha]. destruct (flip32_unlocked_cases m w Hok Hw) as [[_ ->]|(H3 & Hl & ->)].
      + exists m. split; [done|]. by split.
      + destruct (step32 m w Hok (conj Hw (conj H3 (Ha H3)))) as (m' & ws & p & q & x & y & z & o1 & o2 & -> & Hs & Hg & Hvs).
        exists m'. split; [done|]. split; [done|]. intros _ Hall v Hv. apply (gs_att _ _ Hg), Hall, Hvs, Hv.
    - destruct (set_track_step m b Hok) as (m' & -> & Hok' & _ & Ev & _ & _ & Et & _).
      exists m'. split; [done|]. split; [split|].
      + done.
      + by rewrite Et.
      + intros x. by apply attached_tets.
      + intros _ Hall x. rewrite Ev. intros Hx. by apply (attached_tets _ _ _ Et), Hall.
    - destruct (wverts_ex m w Ha) as (p & q & x & y & E).
      destruct (set_tri_lock_step m w b (p, q, x) Hok Ha) as (m' & -> & Hok' & Hnf & _ & Hsr).
      { by apply (walker_accessors m w p q x y). }
      exists m'. split; [done|]. split; [split|].
      + done.
      + by rewrite (sr_npi _ _ Hsr).
      + intros v. by apply no_flags_att.
      + intros _ Hall v. rewrite (sr_verts _ _ Hsr). intros Hv. by apply (no_flags_att m), Hall.
    - destruct (set_edge_lock_step m w b Hok Ha) as (m' & e & ue & -> & Hok' & _ & _ & _ & _ & _ & Ev & _ & Et & _).
      exists m'. split; [done|]. split; [split|].
      + done.
      + by rewrite Et.
      + intros x. by apply attached_tets.
      + intros _ Hall x. rewrite Ev. intros Hx. by apply (attached_tets _ _ _ Et), Hall.
  Qed.

  (** ** Any history. *)
  Lemma ops_step m os : mesh_ok m → all_admissible m os →
    ∃ m', run_ops m os = Some m' ∧ good_step m m' ∧ (Forall (λ o, is_add o = false) os → all_attached m → all_attached m').
  Proof.
    revert m. induction os as [|o os IH]; intros m Hok Ha; cbn [run_ops all_admissible] in *.
    - exists m. split; [done|]. by split.
    - destruct Ha as [Ha Has]. destruct (op_step m o Hok Ha) as (m1 & E & [G1 G2 G3] & Hall).
      destruct (IH m1 G1 (Has m1 E)) as (m' & E' & [K1 K2 K3] & Hall').
      exists m'. rewrite E. cbn [mbind option_bind]. split; [done|]. split; [split; auto|].
      intros Hf. apply Forall_cons in Hf as [Hf1 Hf2]. auto.
  Qed.

  Lemma room_no_invalid m : mesh_ok m → (im_npi (m_tets m) ≤ invalid_id)%N → tet_get m invalid_id = None.
  Proof.
    intros Hok Hn. destruct (tet_get m invalid_id) eqn:E; [|done]. exfalso.
    pose proof (wf_bound _ (ok_ids_tets _ Hok) invalid_id). unfold tet_get, im_get in E. rewrite E in H.
    specialize (H ltac:(eauto)). lia.
  Qed.
End history.
