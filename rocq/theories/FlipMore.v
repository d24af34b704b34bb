(** Consequences of the flip specifications: tet counts, frame, locks. *)
From stdpp Require Import base numbers list gmap option relations fin_sets.
From Coq Require Import NArith ZArith ZifyN ZifyNat ZifyBool Lia.
From Verif Require Import IdMapModel IdMapSpec IdMapProofs IdMapMore WalkerModel WalkerSpec WalkerProofs SortProofs
  MeshModel WalkerMore MeshOps MeshSpec MeshViews Surgery MeshLink MeshRun FlipBase FlipRun FlipSpec FlipCommon
  Flip14Ok Flip23Ok Flip32Ok MeshCheck Flip44Ok MeshOpsOk Integrity HistSpec History.
Local Open Scope nat_scope.

Section more.
  Context {V T : Type}.
  Implicit Types (m : mesh V T) (w : walker) (id : N).

  (** ** Counting. *)
  Lemma replaces_count m m' old new ea ed : mesh_ok m → mesh_ok m' → replaces m m' old new ea ed →
    NoDup old → NoDup new.*1 →
    ∃ n n', num_tets m = Some n ∧ num_tets m' = Some n' ∧
      (n' + N.of_nat (length old) = n + N.of_nat (length new))%N.
  Proof.
    intros Hok Hok' Hr Hno Hnn. unfold num_tets. rewrite !wf_len by (by apply ok_ids_tets).
    eexists _, _. split; [done|]. split; [done|].
    set (D := dom (im_slots (m_tets m))). set (D' := dom (im_slots (m_tets m'))).
    assert (∀ id, id ∈ D ↔ is_Some (tet_get m id)) as HD by (intros; apply elem_of_dom).
    assert (∀ id, id ∈ D' ↔ is_Some (tet_get m' id)) as HD' by (intros; apply elem_of_dom).
    rewrite <- !(size_dom (D := gset N)). fold D D'.
    set (O := list_to_set old : gset N). set (K := list_to_set new.*1 : gset N).
    assert (O ⊆ D) as H1.
    { intros id Hid. apply elem_of_list_to_set in Hid. by apply HD, (rp_old _ _ _ _ _ _ Hr). }
    assert (K ⊆ D') as H2.
    { intros id Hid. apply elem_of_list_to_set in Hid. apply HD'. apply elem_of_list_fmap in Hid as ([k vs] & -> & Hin).
      pose proof (rp_new _ _ _ _ _ _ Hr k vs Hin) as E. destruct (tet_get m' k) eqn:E'; [|done]. cbn. by rewrite E'. }
    assert (D ∖ O = D' ∖ K) as H3.
    { apply set_eq. intros id. rewrite !elem_of_difference, HD, HD'. unfold O, K. rewrite !elem_of_list_to_set.
      destruct (decide (id ∈ old)) as [Ho|Ho], (decide (id ∈ new.*1)) as [Hk|Hk].
      - tauto.
      - rewrite (rp_gone _ _ _ _ _ _ Hr id Ho Hk). split; [tauto|]. intros [[? ?] _]. done.
      - rewrite (rp_fresh _ _ _ _ _ _ Hr id Hk Ho). split; [|tauto]. intros [[? ?] _]. done.
      - pose proof (is_Some_fmap_eq _ _ _ _ (rp_out _ _ _ _ _ _ Hr id Ho Hk)). tauto. }
    assert (size O = length old) as H4 by (by apply size_list_to_set).
    assert (size K = length new) as H5 by (unfold K; rewrite size_list_to_set by done; by rewrite fmap_length).
    assert (size D = size (D ∖ O) + size O) as H6.
    { rewrite size_difference by done. pose proof (subseteq_size _ _ H1). lia. }
    assert (size D' = size (D' ∖ K) + size K) as H7.
    { rewrite size_difference by done. pose proof (subseteq_size _ _ H2). lia. }
    rewrite <- H3 in H7. lia.
  Qed.

  (** ** The frame. *)
  Lemma frame m m' old new ea ed : replaces m m' old new ea ed →
    (∀ id t, tet_get m id = Some t → id ∉ old → ∃ t', tet_get m' id = Some t' ∧
       t_vs t' = t_vs t ∧ t_edges t' = t_edges t ∧ t_flags t' = t_flags t ∧ t_val t' = t_val t) ∧
    (∀ id t', tet_get m' id = Some t' → id ∉ new.*1 → ∃ t, tet_get m id = Some t) ∧
    (∀ v vt, im_get (m_verts m) v = Some vt → ∃ vt', im_get (m_verts m') v = Some vt' ∧
       v_pos vt' = v_pos vt ∧ v_val vt' = v_val vt ∧ v_flags vt' = v_flags vt) ∧
    (∀ v, im_get (m_verts m) v = None → im_get (m_verts m') v = None) ∧
    (∀ e ue, im_get (m_edges m) e = Some ue → ue_vs ue ∉ sorted_2 <$> ed → im_get (m_edges m') e = Some ue).
  Proof.
    intros Hr. split; [|split; [|split; [|split]]].
    - intros id t Ht Ho. assert (id ∉ new.*1) as Hn.
      { intros Hn. rewrite (rp_fresh _ _ _ _ _ _ Hr id Hn Ho) in Ht. done. }
      pose proof (rp_out _ _ _ _ _ _ Hr id Ho Hn) as E. rewrite Ht in E. destruct (tet_get m' id) as [t'|]; [|done].
      cbn in E. apply (inj Some) in E. injection E as E1 E2 E3 E4. eauto 10.
    - intros id t' Ht' Hn. destruct (decide (id ∈ old)) as [Ho|Ho].
      { rewrite (rp_gone _ _ _ _ _ _ Hr id Ho Hn) in Ht'. done. }
      pose proof (rp_out _ _ _ _ _ _ Hr id Ho Hn) as E. rewrite Ht' in E. destruct (tet_get m id) as [t|]; [eauto|done].
    - intros v vt Hv. pose proof (rp_verts _ _ _ _ _ _ Hr v) as E. rewrite Hv in E.
      destruct (im_get (m_verts m') v) as [vt'|]; [|done]. cbn in E. apply (inj Some) in E. injection E as E1 E2 E3. eauto 10.
    - intros v Hv. pose proof (rp_verts _ _ _ _ _ _ Hr v) as E. rewrite Hv in E. by destruct (im_get (m_verts m') v).
    - intros e ue He Hn. apply (rp_edges _ _ _ _ _ _ Hr). by left.
  Qed.

  (** ** Locked edges. *)
  Lemma replaces_locked_edge m m' old new ea ed a b : replaces m m' old new ea ed →
    locked_edge m' a b ↔ locked_edge m a b ∧ sorted_2 (a, b) ∉ sorted_2 <$> ed.
  Proof.
    intros Hr. unfold locked_edge. split.
    - intros (e & ue & H1 & H2 & H3). apply (rp_edges _ _ _ _ _ _ Hr) in H1 as [[H1 H4]|(_ & _ & p & _ & ->)].
      + rewrite H2 in H4. split; [eauto|done].
      + done.
    - intros [(e & ue & H1 & H2 & H3) H4]. exists e, ue. split; [|done]. apply (rp_edges _ _ _ _ _ _ Hr). left.
      by rewrite H2.
  Qed.

  (** ** The unlocked variants. *)
  Lemma corners_locked m w a b c t : mesh_ok m → valid m w → w_tri m w = Some (a, b, c) →
    locked_tri m t → same_corners t (a, b, c) → w_locked m w = Some true.
  Proof.
    intros Hok Hw Ht (u & Hu & Eu & Lu) Hc. destruct t as [[x y] z].
    destruct (wverts_ex m u Hu) as (x' & y' & z' & k & Ev).
    pose proof (wverts_tri _ _ _ _ _ _ Ev) as E. rewrite Eu in E. injection E as <- <- <-.
    pose proof (ok_distinct m Hok _ _ _ _ _ Hu Ev) as (N1&N2&_&N3&_)%NoDup4. cbn in N1, N2, N3.
    assert (∀ u', valid m u' → w_tri m u' = Some (a, b, c) → w_locked m u' = Some true → w_locked m w = Some true) as Huniq.
    { intros u' Hu' Et' El'. by rewrite <- (ok_tri_unique m Hok u' w _ Hu' Hw Et' Ht). }
    assert (∀ u u', w_tet u' = w_tet u → w_edge u' mod 4 = w_edge u mod 4 → w_locked m u' = w_locked m u) as Hlk.
    { intros u1 u2 E1 E2. unfold w_locked. by rewrite E1, E2. }
    assert (∀ u x y z k, valid m u → w_verts m u = Some (A4 x y z k) → w_locked m u = Some true →
       ((a, b, c) = (x, y, z) ∨ (a, b, c) = (y, z, x) ∨ (a, b, c) = (z, x, y)) → w_locked m w = Some true) as Hrot.
    { clear -Huniq Hlk. intros u x y z k Hu Ev Lu Hor. destruct Hor as [E|[E|E]].
      - apply (Huniq u Hu); [|done]. rewrite E. by apply (wverts_tri _ _ _ _ _ k).
      - apply (Huniq (to_nfe u)); [by apply valid_nfe| |].
        + rewrite E. eapply wverts_tri, wverts_nfe; done.
        + rewrite <- Lu. apply Hlk; [done|]. destruct u as [i e]. destruct Hu as [_ He]. cbn in He. by case12 e He.
      - apply (Huniq (to_pfe u)); [by apply valid_pfe| |].
        + rewrite E. eapply wverts_tri. apply (walker_moves m u x y z k); [apply Hu|done].
        + rewrite <- Lu. apply Hlk; [done|]. destruct u as [i e]. destruct Hu as [_ He]. cbn in He. by case12 e He. }
    destruct (ok_adj m Hok u x y z k Hu Ev) as (u' & k' & A1 & A2 & A3 & A4).
    pose proof (ok_lock m Hok u u' Hu A1) as Lu'. rewrite Lu in Lu'.
    assert (x = a ∨ x = b ∨ x = c) as Hx by (pose proof (proj1 (Hc x)) as H; cbn in H; rewrite !elem_of_cons, !elem_of_nil in H; tauto).
    assert (y = a ∨ y = b ∨ y = c) as Hy by (pose proof (proj1 (Hc y)) as H; cbn in H; rewrite !elem_of_cons, !elem_of_nil in H; tauto).
    assert (z = a ∨ z = b ∨ z = c) as Hz by (pose proof (proj1 (Hc z)) as H; cbn in H; rewrite !elem_of_cons, !elem_of_nil in H; tauto).
    pose proof (Hrot u x y z k Hu Ev Lu) as R1. pose proof (Hrot u' y x z k' A2 A3 Lu') as R2.
    clear -R1 R2 Hx Hy Hz N1 N2 N3.
    destruct Hx as [->|[->| ->]], Hy as [->|[->| ->]], Hz as [->|[->| ->]]; try done; (apply R1 + apply R2); tauto.
  Qed.

  Lemma unlocked23 m w : mesh_ok m → valid m w →
    (w_locked m w = Some true → flip23_unlocked m w = Some (m, None)) ∧
    (w_locked m w = Some false → flip23_ready m w → id_room m 1 1 →
     ∃ m' ws, flip23_unlocked m w = Some (m', Some ws) ∧ flip23_unchecked m w = Some (m', ws) ∧ mesh_ok m' ∧
       (∀ t, locked_tri m' t ↔ locked_tri m t) ∧ (∀ a b, locked_edge m' a b ↔ locked_edge m a b)).
  Proof.
    intros Hok Hw. split.
    - intros E. unfold flip23_unlocked. by rewrite E.
    - intros E (_ & other & d & e & Ho & Ed & Ee & Hde & Hj) Hr.
      destruct (wverts_ex m w Hw) as (a & b & c & d' & Ev).
      assert (d' = d) as -> by (pose proof (wverts_fourth _ _ _ _ _ _ Ev); congruence).
      destruct (flip23_step m w other a b c d e Hok Hw Ev Ho Ee Hde Hj Hr) as (m' & ws & id2 & Er & Hs & Hok').
      exists m', ws. unfold flip23_unlocked. rewrite E. cbn [mbind option_bind]. rewrite Er. cbn [mbind option_bind].
      split; [done|]. split; [done|]. split; [done|]. split.
      + intros t. rewrite (fs23_locks _ _ _ _ _ _ _ _ _ _ _ Hs t). split; [tauto|]. intros Hl. split; [done|].
        intros Hc. pose proof (corners_locked m w a b c t Hok Hw (wverts_tri _ _ _ _ _ _ Ev) Hl Hc). congruence.
      + intros x y. rewrite (replaces_locked_edge _ _ _ _ _ _ x y (fs23_repl _ _ _ _ _ _ _ _ _ _ _ Hs)).
        split; [tauto|]. intros H. split; [done|]. apply not_elem_of_nil.
  Qed.

  Lemma ring_inj m w1 w2 w' : mesh_ok m → valid m w1 → valid m w2 → ring_next m w1 = Some w' → ring_next m w2 = Some w' → w1 = w2.
  Proof.
    intros Hok V1 V2 R1 R2. unfold ring_next in *.
    destruct (wverts_ex m w1 V1) as (p & q & x & y & E1). destruct (wverts_ex m w2 V2) as (p2 & q2 & x2 & y2 & E2).
    destruct (adj_info m (to_twin_edge w1) w' q p y x Hok) as (_ & _ & B1); [by apply valid_twin|by apply wverts_twin|done|].
    destruct (adj_info m (to_twin_edge w2) w' q2 p2 y2 x2 Hok) as (_ & _ & B2); [by apply valid_twin|by apply wverts_twin|done|].
    rewrite B1 in B2. apply (inj Some) in B2.
    pose proof (f_equal to_twin_edge B2) as B3.
    rewrite !twin_twin in B3 by (apply V1 || apply V2). done.
  Qed.

  Lemma ring3_members m w o1 o2 u : mesh_ok m → valid m w → ring_next m w = Some o1 → ring_next m o1 = Some o2 →
    ring_next m o2 = Some w → rtsc (edge_step m) w u → u = w ∨ u = o1 ∨ u = o2.
  Proof.
    intros Hok Hw R1 R2 R3. 
    assert (valid m o1 ∧ valid m o2) as [V1 V2].
    { destruct (ring_ex m w Hok Hw) as (x & E & Hx). rewrite R1 in E. injection E as <-.
      destruct (ring_ex m o1 Hok Hx) as (y & E & Hy). rewrite R2 in E. injection E as <-. done. }
    revert u. apply (rtc_ind_r (λ u, u = w ∨ u = o1 ∨ u = o2)); [by left|]. intros u u' _ Hs IH.
    destruct Hs as [[Vu Hu]|[Vu' Hu']]; destruct IH as [->|[->| ->]].
    - right; left. congruence.
    - right; right. congruence.
    - left. congruence.
    - right; right. by apply (ring_inj m u' o2 w).
    - left. by apply (ring_inj m u' w o1).
    - right; left. by apply (ring_inj m u' o1 o2).
  Qed.

  (** A locked triangle containing the edge [p q] is locked as seen from some walker on [p q]. *)
  Lemma locked_at_edge m p q t : mesh_ok m → p ≠ q → locked_tri m t →
    p ∈ [t.1.1; t.1.2; t.2] → q ∈ [t.1.1; t.1.2; t.2] →
    ∃ u, valid m u ∧ w_pair m u = Some (p, q) ∧ w_locked m u = Some true.
  Proof.
    intros Hok Hpq (u & Hu & Eu & Lu) Hp Hq. destruct t as [[x y] z]. cbn in Hp, Hq.
    destruct (wverts_ex m u Hu) as (x' & y' & z' & k & Ev).
    pose proof (wverts_tri _ _ _ _ _ _ Ev) as E. rewrite Eu in E. injection E as <- <- <-.
    assert (∀ u u', w_tet u' = w_tet u → w_edge u' mod 4 = w_edge u mod 4 → w_locked m u' = w_locked m u) as Hlk.
    { intros u1 u2 E1 E2. unfold w_locked. by rewrite E1, E2. }
    assert (∀ u x y z k, valid m u → w_verts m u = Some (A4 x y z k) → w_locked m u = Some true →
       ((p, q) = (x, y) ∨ (p, q) = (y, z) ∨ (p, q) = (z, x)) →
       ∃ u, valid m u ∧ w_pair m u = Some (p, q) ∧ w_locked m u = Some true) as Hrot.
    { clear -Hlk. intros u x y z k Hu Ev Lu Hor. destruct Hor as [E|[E|E]]; rewrite E.
      - exists u. split; [done|]. split; [|done]. by eapply wverts_pair.
      - exists (to_nfe u). split; [by apply valid_nfe|]. split.
        + eapply wverts_pair, wverts_nfe; done.
        + rewrite <- Lu. apply Hlk; [done|]. destruct u as [i e]. destruct Hu as [_ He]. cbn in He. by case12 e He.
      - exists (to_pfe u). split; [by apply valid_pfe|]. split.
        + eapply wverts_pair. apply (walker_moves m u x y z k); [apply Hu|done].
        + rewrite <- Lu. apply Hlk; [done|]. destruct u as [i e]. destruct Hu as [_ He]. cbn in He. by case12 e He. }
    destruct (ok_adj m Hok u x y z k Hu Ev) as (u' & k' & A1 & A2 & A3 & A4).
    pose proof (ok_lock m Hok u u' Hu A1) as Lu'. rewrite Lu in Lu'.
    pose proof (Hrot u x y z k Hu Ev Lu) as R1. pose proof (Hrot u' y x z k' A2 A3 Lu') as R2.
    rewrite !elem_of_cons, elem_of_nil in Hp, Hq. clear -R1 R2 Hp Hq Hpq.
    destruct Hp as [->|[->|[->|[]]]], Hq as [->|[->|[->|[]]]]; try done; (apply R1; tauto) || (apply R2; tauto).
  Qed.

  Lemma unlocked32 m w : mesh_ok m → valid m w →
    (¬ ring3 m w ∨ edge_star_locked m w → flip32_unlocked m w = Some (m, None)) ∧
    (¬ edge_star_locked m w → flip32_ready m w →
     ∃ m' ws, flip32_unlocked m w = Some (m', Some ws) ∧ flip32_unchecked m w = Some (m', ws) ∧ mesh_ok m' ∧
       (∀ t, locked_tri m' t ↔ locked_tri m t) ∧ (∀ a b, locked_edge m' a b ↔ locked_edge m a b)).
  Proof.
    intros Hok Hw. split.
    - intros H. destruct (flip32_unlocked_cases m w Hok Hw) as [[_ E]|(H1 & H2 & _)]; [done|]. tauto.
    - intros Hs Hrd. destruct (flip32_unlocked_cases m w Hok Hw) as [[H _]|(_ & _ & E)].
      { destruct H as [H|H]; [|done]. by destruct H, Hrd as (_ & H & _). }
      destruct (step32 m w Hok Hrd) as (m' & ws & p & q & x & y & z & o1 & o2 & Er & Hsp & Hg & _).
      rewrite Er in E. exists m', ws. split; [done|]. split; [done|]. split; [apply Hg|].
      destruct Hrd as (_ & (o1' & o2' & R1 & R2 & R3) & _).
      destruct (fs32_other1 _ _ _ _ _ _ _ _ _ _ _ Hsp) as [R1' _]. rewrite R1 in R1'. injection R1' as ->.
      destruct (fs32_other2 _ _ _ _ _ _ _ _ _ _ _ Hsp) as [R2' _]. rewrite R2 in R2'. injection R2' as ->.
      pose proof (fs32_self _ _ _ _ _ _ _ _ _ _ _ Hsp) as Ev.
      pose proof (ok_distinct m Hok _ _ _ _ _ Hw Ev) as (N1&_)%NoDup4. cbn in N1. split.
      + intros t. rewrite (fs32_locks _ _ _ _ _ _ _ _ _ _ _ Hsp t). split; [tauto|]. intros Hl. split; [done|].
        intros [Hp Hq]. destruct (locked_at_edge m p q t Hok N1 Hl Hp Hq) as (u & Hu & Eu & Lu).
        apply Hs. exists o1, o2. split; [done|]. split; [done|].
        destruct (ring3_members m w o1 o2 u Hok Hw R1 R2 R3) as [->|[->| ->]]; [|tauto..].
        apply (ok_ring m Hok w u (p, q) Hw Hu); [by eapply wverts_pair|done].
      + intros a b. rewrite (replaces_locked_edge _ _ _ _ _ _ a b (fs32_repl _ _ _ _ _ _ _ _ _ _ _ Hsp)).
        split; [tauto|]. intros H. split; [done|]. intros Hin. cbn in Hin. apply elem_of_list_singleton in Hin.
        destruct H as (e & ue & H1 & H2 & H3). apply Hs. exists o1, o2. split; [done|]. split; [done|]. right; right; right.
        destruct (ok_edge m Hok w p q Hw) as (e' & ue' & U1 & U2 & U3); [by eapply wverts_pair|].
        assert (e' = e) as -> by (apply (ok_edge_unique m Hok e' e ue' ue); [done|done|]; rewrite U3, H2; by symmetry).
        unfold w_edge_locked. rewrite U1. cbn [mbind option_bind]. rewrite H1. cbn. by rewrite H3.
  Qed.

  (** ** Counts and frames of the four flips. *)
  Lemma count14 m w v m' ws : mesh_ok m → mesh_ok m' → flip14_spec m w v m' ws →
    ∃ n, num_tets m = Some n ∧ num_tets m' = Some (n + 3)%N.
  Proof.
    intros Hok Hok' Hs. destruct (fs14_repl _ _ _ _ _ Hs) as (a & b & c & d & id1 & id2 & id3 & E0 & Hnd & Ews & Hrep).
    destruct (replaces_count _ _ _ _ _ _ Hok Hok' Hrep) as (n & n' & E & E' & H); [apply NoDup_singleton|done|].
    exists n. split; [done|]. rewrite E'. f_equal. cbn in H. lia.
  Qed.
  Lemma count23 m w m' ws a b c d e other id2 : mesh_ok m → mesh_ok m' → flip23_spec m w m' ws a b c d e other id2 →
    ∃ n, num_tets m = Some n ∧ num_tets m' = Some (n + 1)%N.
  Proof.
    intros Hok Hok' Hs. pose proof (fs23_repl _ _ _ _ _ _ _ _ _ _ _ Hs) as Hrep.
    pose proof (fs23_ids _ _ _ _ _ _ _ _ _ _ _ Hs) as Hnd.
    destruct (replaces_count _ _ _ _ _ _ Hok Hok' Hrep) as (n & n' & E & E' & H); [|done|].
    { rewrite !NoDup_cons, !elem_of_cons in *. split; [|split; [|constructor]]; [tauto|apply not_elem_of_nil]. }
    exists n. split; [done|]. rewrite E'. f_equal. cbn in H. lia.
  Qed.
  Lemma count32 m w m' ws p q x y z o1 o2 : mesh_ok m → mesh_ok m' → flip32_spec m w m' ws p q x y z o1 o2 →
    ∃ n, num_tets m = Some (n + 1)%N ∧ num_tets m' = Some n.
  Proof.
    intros Hok Hok' Hs. pose proof (fs32_repl _ _ _ _ _ _ _ _ _ _ _ Hs) as Hrep.
    pose proof (fs32_ids _ _ _ _ _ _ _ _ _ _ _ Hs) as Hnd.
    destruct (replaces_count _ _ _ _ _ _ Hok Hok' Hrep) as (n & n' & E & E' & H); [done| |].
    { cbn. rewrite !NoDup_cons, !elem_of_cons in *. split; [|split; [|constructor]]; [tauto|apply not_elem_of_nil]. }
    exists n'. split; [|done]. rewrite E. f_equal. cbn in H. lia.
  Qed.
  Lemma count44 m w m' ws p q x y z u r1 r2 r3 : mesh_ok m → mesh_ok m' → valid m w →
    flip44_spec m w m' ws p q x y z u r1 r2 r3 → ∃ n, num_tets m = Some n ∧ num_tets m' = Some n.
  Proof.
    intros Hok Hok' Hw Hs. destruct (fs44_repl _ _ _ _ _ _ _ _ _ _ _ _ _ Hs) as (id & Hid & Hrep).
    pose proof (fs44_ids _ _ _ _ _ _ _ _ _ _ _ _ _ Hs) as Hnd.
    destruct (fs44_ring _ _ _ _ _ _ _ _ _ _ _ _ _ Hs) as (E0 & _).
    pose proof (ok_distinct m Hok _ _ _ _ _ Hw E0) as (N1&N2&N3&N4&N5&N6)%NoDup4. cbn in *.
    destruct (replaces_count _ _ _ _ _ _ Hok Hok' Hrep) as (n & n' & E & E' & H); [done| |].
    { cbn. pose proof (rp_new _ _ _ _ _ _ Hrep) as Hn.
      pose proof (Hn (w_tet w) _ ltac:(by left)) as X0. pose proof (Hn (w_tet r1) _ ltac:(by right; left)) as X1.
      pose proof (Hn id _ ltac:(by right; right; left)) as X2. pose proof (Hn (w_tet r3) _ ltac:(by right; right; right; left)) as X3.
      assert (id ≠ w_tet w) by (intros ->; rewrite X0 in X2; injection X2; congruence).
      assert (id ≠ w_tet r1) by (intros ->; rewrite X1 in X2; injection X2; congruence).
      assert (id ≠ w_tet r3) by (intros ->; rewrite X3 in X2; injection X2; congruence).
      clear -Hnd H H0 H1. rewrite !NoDup_cons, !elem_of_cons, !elem_of_nil in *. 
      assert (NoDup (@nil N)) by constructor. assert (w_tet w ≠ id) by congruence. assert (w_tet r1 ≠ id) by congruence. tauto. }
    exists n. split; [done|]. rewrite E'. f_equal. cbn in H. lia.
  Qed.
End more.
