(** Flips conserve volume. *)
From Coq Require Import NArith ZArith Lia.
From stdpp Require Import base numbers list gmap option relations fin_sets.
From Verif Require Import IdMapModel IdMapSpec IdMapProofs IdMapMore WalkerModel WalkerSpec WalkerProofs MeshModel WalkerMore MeshOps MeshSpec
  MeshViews MeshRun FlipSpec MeshCheck Flip44Ok MeshOpsOk HistSpec HistCheck History FlipMore GeoModel NewMesh Reach GeoSpec GeoProofs GeoMesh.
Local Open Scope Z_scope.

Section vol.
  Context {V T : Type}.
  Implicit Types (m : mesh V T) (w : walker) (id v : N) (g : arr4 N → Z).

  (** ** Sums over tets. *)
  Lemma sum_app f l l' : sum_over f (l ++ l') = sum_over f l + sum_over f l'.
  Proof. unfold sum_over. induction l as [|x l IH]; cbn; [done|]. rewrite IH. lia. Qed.
  Lemma sum_perm f l l' : l ≡ₚ l' → sum_over f l = sum_over f l'.
  Proof. unfold sum_over. induction 1; cbn; lia. Qed.
  Lemma sum_ext f h l : (∀ x, x ∈ l → f x = h x) → sum_over f l = sum_over h l.
  Proof.
    unfold sum_over. induction l as [|x l IH]; cbn; intros H; [done|]. rewrite H by left. rewrite IH; [done|]. intros y Hy. apply H. by right.
  Qed.
  Lemma sum_sub f h l : sum_over f l - sum_over h l = sum_over (λ x, f x - h x) l.
  Proof. unfold sum_over. induction l as [|x l IH]; cbn; lia. Qed.

  Definition term g m id : Z := match tet_get m id with Some t => g (t_vs t) | None => 0 end.
  Definition tsum g m : Z := sum_over (term g m) (im_keys (m_tets m)).

  Lemma keys_elements m : mesh_ok m → im_keys (m_tets m) ≡ₚ elements (dom (im_slots (m_tets m)) : gset N).
  Proof.
    intros Hok. apply NoDup_Permutation.
    - apply StronglySorted_lt_NoDup, im_keys_sorted.
    - apply NoDup_elements.
    - intros k. rewrite elem_of_elements, elem_of_dom. apply elem_of_im_keys, ok_ids_tets, Hok.
  Qed.

  Lemma set_split (D O : gset N) (l : list N) : O ⊆ D → NoDup l → (∀ x, x ∈ l ↔ x ∈ O) → elements D ≡ₚ l ++ elements (D ∖ O).
  Proof.
    intros Hs Hn Hl. apply NoDup_Permutation; [apply NoDup_elements| |].
    - apply NoDup_app. split; [done|]. split; [|apply NoDup_elements]. intros x Hx. rewrite elem_of_elements, elem_of_difference, <- Hl. tauto.
    - intros x. rewrite elem_of_app, !elem_of_elements, elem_of_difference, Hl. destruct (decide (x ∈ O)); [|tauto]. split; [tauto|]. intros _. by apply Hs.
  Qed.

  Lemma tsum_replaces g m m' old new ea ed : mesh_ok m → mesh_ok m' → replaces m m' old new ea ed → NoDup old → NoDup new.*1 →
    tsum g m' + sum_over (term g m) old = tsum g m + foldr (λ x s, g x + s) 0 new.*2.
  Proof.
    intros Hok Hok' Hr Hno Hnn. unfold tsum. rewrite (sum_perm _ _ _ (keys_elements m Hok)), (sum_perm _ _ _ (keys_elements m' Hok')).
    set (D := dom (im_slots (m_tets m)) : gset N). set (D' := dom (im_slots (m_tets m')) : gset N).
    assert (∀ id, id ∈ D ↔ is_Some (tet_get m id)) as HD by (intros; apply elem_of_dom).
    assert (∀ id, id ∈ D' ↔ is_Some (tet_get m' id)) as HD' by (intros; apply elem_of_dom).
    set (O := list_to_set old : gset N). set (K := list_to_set new.*1 : gset N).
    assert (O ⊆ D) as H1.
    { intros id Hid. apply elem_of_list_to_set in Hid. by apply HD, (rp_old _ _ _ _ _ _ Hr). }
    assert (K ⊆ D') as H2.
    { intros id Hid. apply elem_of_list_to_set in Hid. apply HD'. apply elem_of_list_fmap in Hid as ([k vs] & -> & Hin).
      pose proof (rp_new _ _ _ _ _ _ Hr k vs Hin) as E. destruct (tet_get m' k) eqn:E'; [|done]. cbn. by rewrite E'. }
    assert (D ∖ O = D' ∖ K) as H3.
    { apply set_eq. intros id. rewrite !elem_of_difference, HD, HD'. unfold O, K. rewrite !elem_of_list_to_set.
      destruct (decide (id ∈ old)) as [Ho|Ho], (decide (id ∈ new.*1)) as [Hk|Hk].
      - tauto.
      - rewrite (rp_gone _ _ _ _ _ _ Hr id Ho Hk). split; [tauto|]. intros [[? ?] _]. done.
      - rewrite (rp_fresh _ _ _ _ _ _ Hr id Hk Ho). split; [|tauto]. intros [[? ?] _]. done.
      - pose proof (is_Some_fmap_eq _ _ _ _ (rp_out _ _ _ _ _ _ Hr id Ho Hk)). tauto. }
    rewrite (sum_perm _ _ _ (set_split D O old H1 Hno (λ x, iff_sym (elem_of_list_to_set x old)))).
    rewrite (sum_perm _ _ _ (set_split D' K new.*1 H2 Hnn (λ x, iff_sym (elem_of_list_to_set x new.*1)))).
    rewrite !sum_app, H3.
    assert (sum_over (term g m') (elements (D' ∖ K)) = sum_over (term g m) (elements (D' ∖ K))) as ->.
    { apply sum_ext. intros id Hid. assert (id ∈ D ∖ O) as Ho by (by rewrite H3; apply elem_of_elements).
      rewrite elem_of_elements in Hid. apply elem_of_difference in Ho as [_ Ho]. apply elem_of_difference in Hid as [_ Hk].
      unfold O in Ho. unfold K in Hk. rewrite elem_of_list_to_set in Ho, Hk.
      pose proof (rp_out _ _ _ _ _ _ Hr id Ho Hk) as E. unfold term.
      destruct (tet_get m id), (tet_get m' id); try done. cbn in E. apply (inj Some) in E. injection E as -> _ _ _. done. }
    assert (sum_over (term g m') new.*1 = foldr (λ x s, g x + s) 0 new.*2) as ->; [|lia].
    { assert (∀ id vs, (id, vs) ∈ new → term g m' id = g vs) as Ht.
      { intros id vs Hin. pose proof (rp_new _ _ _ _ _ _ Hr id vs Hin) as E. unfold term. destruct (tet_get m' id); [|done]. by injection E as ->. }
      clear -Ht. induction new as [|[k vs] new IH]; [done|]. unfold sum_over in *. cbn. rewrite (Ht k vs) by left. rewrite IH; [done|].
      intros. apply Ht. by right. }
  Qed.

  (** ** The orientation of four vertices, with the ghost vertex at the centre. *)
  Definition raw m (vs : arr4 N) : Z :=
    (if has_ghost (list4 vs) then -1 else 1) * default 0 (orient_3d m (q0 vs) (q1 vs) (q2 vs) (q3 vs)).
  Definition solid m (vs : arr4 N) : Z := if has_ghost (list4 vs) then 0 else raw m vs.

  Definition pos m v : pt := default origin (idx_ori m v).
  Definition known m v : Prop := is_Some (idx_ori m v).

  Lemma raw_pos m a b c d : known m a → known m b → known m c → known m d →
    raw m (A4 a b c d) = orient (pos m a) (pos m b) (pos m c) (pos m d).
  Proof.
    unfold known, pos, raw, orient_3d, list4. cbn [q0 q1 q2 q3]. intros [pa ->] [pb ->] [pc ->] [pd ->]. cbn [mbind option_bind default from_option id].
    destruct (has_ghost [a; b; c; d]); rewrite ?Z.mul_1_l; lia.
  Qed.
  Lemma raw_even m vs (e : nat) : (e < 12)%nat → raw m (verts_at vs e) = raw m vs.
  Proof.
    intros He. unfold raw. rewrite o3_even by done. f_equal.
    assert (has_ghost (list4 (verts_at vs e)) = has_ghost (list4 vs)) as ->; [|done].
    apply has_ghost_perm. intros x. unfold list4, verts_at. destruct vs. do 12 (destruct e as [|e]; [cbn; rewrite !elem_of_cons; tauto|]). lia.
  Qed.
  Lemma solid_even m vs (e : nat) : (e < 12)%nat → solid m (verts_at vs e) = solid m vs.
  Proof.
    intros He. unfold solid. rewrite raw_even by done.
    assert (has_ghost (list4 (verts_at vs e)) = has_ghost (list4 vs)) as ->; [|done].
    apply has_ghost_perm. intros x. unfold list4, verts_at. destruct vs. do 12 (destruct e as [|e]; [cbn; rewrite !elem_of_cons; tauto|]). lia.
  Qed.
  Lemma term_walker g m w vs : (∀ vs (e : nat), (e < 12)%nat → g (verts_at vs e) = g vs) → valid m w → w_verts m w = Some vs → term g m (w_tet w) = g vs.
  Proof.
    intros Hg [[t Ht] He] Hv. unfold term. rewrite Ht. rewrite (wverts_at m w t Ht) in Hv. injection Hv as <-. by rewrite Hg.
  Qed.

  Lemma known_corner m w v : mesh_ok m → valid m w → (∃ vs, w_verts m w = Some vs ∧ v ∈ list4 vs) → known m v.
  Proof.
    intros Hok Hw (vs & Hv & Hin). pose proof Hw as [[t Ht] He].
    assert (attached m v) as (w' & Hw' & Hf').
    { destruct (wverts_in m w vs Hw Hv) as (vs' & E & Hx). apply attached_vs. unfold vs_of in E. rewrite Ht in E. injection E as <-.
      exists (w_tet w), t. split; [done|]. by apply Hx. }
    unfold known, idx_ori. destruct (ok_exist m Hok w' v Hw' Hf') as [->|[vt Hvt]]; [by rewrite N.eqb_refl|].
    destruct (N.eqb v GHOST); [done|]. rewrite Hvt. done.
  Qed.

  Lemma idx_same m m' old new ea ed v : replaces m m' old new ea ed → idx_ori m' v = idx_ori m v.
  Proof.
    intros Hr. unfold idx_ori. rewrite (rp_center _ _ _ _ _ _ Hr). destruct (N.eqb v GHOST); [done|].
    pose proof (rp_verts _ _ _ _ _ _ Hr v) as E. destruct (im_get (m_verts m') v), (im_get (m_verts m) v); try done. cbn in E. apply (inj Some) in E.
    cbn. congruence.
  Qed.
  Lemma raw_ext m m' vs : (∀ v, idx_ori m' v = idx_ori m v) → raw m' vs = raw m vs.
  Proof. intros H. unfold raw, orient_3d. by rewrite !H. Qed.
  Lemma solid_ext m m' vs : (∀ v, idx_ori m' v = idx_ori m v) → solid m' vs = solid m vs.
  Proof. intros H. unfold solid. by rewrite (raw_ext m m'). Qed.
  Lemma tsum_ext g h m : (∀ id t, tet_get m id = Some t → g (t_vs t) = h (t_vs t)) → tsum g m = tsum h m.
  Proof. intros H. unfold tsum. apply sum_ext. intros id _. unfold term. destruct (tet_get m id) eqn:E; [|done]. by eapply H. Qed.

  (** A reorder-invariant weight, equal to [raw] on the corners of a flip, is conserved by it. *)
  Definition weight m g (cs : list N) : Prop :=
    (∀ vs (e : nat), (e < 12)%nat → g (verts_at vs e) = g vs) ∧ (∀ vs, (∀ v, v ∈ list4 vs → v ∈ cs) → g vs = raw m vs).

  Lemma vol14 m w v m' ws g t : mesh_ok m → mesh_ok m' → valid m w → is_Some (im_get (m_verts m) v) → flip14_spec m w v m' ws →
    tet_get m (w_tet w) = Some t → weight m g (v :: list4 (t_vs t)) → tsum g m' = tsum g m.
  Proof.
    intros Hok Hok' Hw Hv Hs Ht [_ Hg]. destruct (fs14_repl _ _ _ _ _ Hs) as (a & b & c & d & id1 & id2 & id3 & Hvs & Hnd & _ & Hr).
    rewrite Ht in Hvs. injection Hvs as Hvs.
    pose proof (tsum_replaces g _ _ _ _ _ _ Hok Hok' Hr ltac:(apply NoDup_singleton) Hnd) as H. cbn in H.
    unfold term in H. rewrite Ht, Hvs in H. rewrite Hvs in Hg. unfold list4 in Hg. cbn [q0 q1 q2 q3] in Hg.
    assert (w_verts m (Walker (w_tet w) 3) = Some (A4 a b c d)) as Hc by (rewrite (wverts_at m (Walker (w_tet w) 3) t Ht); rewrite Hvs; done).
    assert (valid m (Walker (w_tet w) 3)) as Hwc by (split; [done|cbn; lia]).
    assert (known m a) as Ka by (eapply known_corner; [done|exact Hwc|]; eexists; split; [done|]; unfold list4; cbn; rewrite !elem_of_cons; tauto).
    assert (known m b) as Kb by (eapply known_corner; [done|exact Hwc|]; eexists; split; [done|]; unfold list4; cbn; rewrite !elem_of_cons; tauto).
    assert (known m c) as Kc by (eapply known_corner; [done|exact Hwc|]; eexists; split; [done|]; unfold list4; cbn; rewrite !elem_of_cons; tauto).
    assert (known m d) as Kd by (eapply known_corner; [done|exact Hwc|]; eexists; split; [done|]; unfold list4; cbn; rewrite !elem_of_cons; tauto).
    assert (known m v) as Kv by (unfold known, idx_ori; destruct (N.eqb v GHOST); [done|]; destruct Hv as [? ->]; done).
    rewrite !Hg in H by (intros x; unfold list4; cbn; rewrite !elem_of_cons; tauto).
    rewrite !raw_pos in H by done. pose proof (orient_five (pos m a) (pos m b) (pos m c) (pos m d) (pos m v)) as O.
    revert H O. generalize (orient (pos m a) (pos m b) (pos m c) (pos m d)) (orient (pos m v) (pos m b) (pos m c) (pos m d))
      (orient (pos m a) (pos m v) (pos m c) (pos m d)) (orient (pos m a) (pos m b) (pos m v) (pos m d)) (orient (pos m a) (pos m b) (pos m c) (pos m v)).
    clear. intros. lia.
  Qed.

  Lemma vol23 m w m' ws a b c d e other id2 g : mesh_ok m → mesh_ok m' → valid m w → flip23_spec m w m' ws a b c d e other id2 →
    weight m g [a; b; c; d; e] → tsum g m' = tsum g m.
  Proof.
    intros Hok Hok' Hw Hs [Hg0 Hg]. pose proof (fs23_repl _ _ _ _ _ _ _ _ _ _ _ Hs) as Hr. pose proof (fs23_ids _ _ _ _ _ _ _ _ _ _ _ Hs) as Hnd.
    pose proof (fs23_self _ _ _ _ _ _ _ _ _ _ _ Hs) as E1. destruct (fs23_other _ _ _ _ _ _ _ _ _ _ _ Hs) as [Ea E2].
    destruct (adj_info m w other a b c d Hok Hw E1 Ea) as (Ho & _).
    pose proof (tsum_replaces g _ _ _ _ _ _ Hok Hok' Hr) as H. cbn in H.
    specialize (H ltac:(clear -Hnd; rewrite !NoDup_cons, !elem_of_cons, !elem_of_nil in *; split; [tauto|split; [tauto|constructor]]) Hnd).
    rewrite (term_walker g m w _ Hg0 Hw E1), (term_walker g m other _ Hg0 Ho E2) in H.
    assert (known m a) as Ka by (eapply known_corner; [done|exact Hw|]; eexists; split; [done|]; unfold list4; cbn; rewrite !elem_of_cons; tauto).
    assert (known m b) as Kb by (eapply known_corner; [done|exact Hw|]; eexists; split; [done|]; unfold list4; cbn; rewrite !elem_of_cons; tauto).
    assert (known m c) as Kc by (eapply known_corner; [done|exact Hw|]; eexists; split; [done|]; unfold list4; cbn; rewrite !elem_of_cons; tauto).
    assert (known m d) as Kd by (eapply known_corner; [done|exact Hw|]; eexists; split; [done|]; unfold list4; cbn; rewrite !elem_of_cons; tauto).
    assert (known m e) as Ke by (eapply known_corner; [done|exact Ho|]; eexists; split; [done|]; unfold list4; cbn; rewrite !elem_of_cons; tauto).
    rewrite !Hg in H by (intros x; unfold list4; cbn; rewrite !elem_of_cons; tauto).
    rewrite !raw_pos in H by done.
    assert (∀ a b c d e, orient a b c d + orient b a c e = orient b a d e + orient a c d e + orient c b d e) as O
      by (clear; intros [] [] [] [] []; geo; ring).
    specialize (O (pos m a) (pos m b) (pos m c) (pos m d) (pos m e)). revert H O.
    generalize (orient (pos m a) (pos m b) (pos m c) (pos m d)) (orient (pos m b) (pos m a) (pos m c) (pos m e))
      (orient (pos m b) (pos m a) (pos m d) (pos m e)) (orient (pos m a) (pos m c) (pos m d) (pos m e)) (orient (pos m c) (pos m b) (pos m d) (pos m e)).
    clear. intros. lia.
  Qed.

  Lemma vol32 m w m' ws p q x y z o1 o2 g : mesh_ok m → mesh_ok m' → valid m w → flip32_spec m w m' ws p q x y z o1 o2 →
    weight m g [p; q; x; y; z] → tsum g m' = tsum g m.
  Proof.
    intros Hok Hok' Hw Hs [Hg0 Hg]. pose proof (fs32_repl _ _ _ _ _ _ _ _ _ _ _ Hs) as Hr. pose proof (fs32_ids _ _ _ _ _ _ _ _ _ _ _ Hs) as Hnd.
    pose proof (fs32_self _ _ _ _ _ _ _ _ _ _ _ Hs) as E0. destruct (fs32_other1 _ _ _ _ _ _ _ _ _ _ _ Hs) as [R1 E1].
    destruct (fs32_other2 _ _ _ _ _ _ _ _ _ _ _ Hs) as [R2 E2].
    assert (valid m o1) as Hw1 by (destruct (ring_ex m w Hok Hw) as (? & E & ?); congruence).
    assert (valid m o2) as Hw2 by (destruct (ring_ex m o1 Hok Hw1) as (? & E & ?); congruence).
    pose proof (tsum_replaces g _ _ _ _ _ _ Hok Hok' Hr) as H. cbn in H.
    specialize (H Hnd ltac:(clear -Hnd; rewrite !NoDup_cons, !elem_of_cons, !elem_of_nil in *; split; [tauto|split; [tauto|constructor]])).
    rewrite (term_walker g m w _ Hg0 Hw E0), (term_walker g m o1 _ Hg0 Hw1 E1), (term_walker g m o2 _ Hg0 Hw2 E2) in H.
    assert (known m p) as Ka by (eapply known_corner; [done|exact Hw|]; eexists; split; [done|]; unfold list4; cbn; rewrite !elem_of_cons; tauto).
    assert (known m q) as Kb by (eapply known_corner; [done|exact Hw|]; eexists; split; [done|]; unfold list4; cbn; rewrite !elem_of_cons; tauto).
    assert (known m x) as Kc by (eapply known_corner; [done|exact Hw|]; eexists; split; [done|]; unfold list4; cbn; rewrite !elem_of_cons; tauto).
    assert (known m y) as Kd by (eapply known_corner; [done|exact Hw|]; eexists; split; [done|]; unfold list4; cbn; rewrite !elem_of_cons; tauto).
    assert (known m z) as Ke by (eapply known_corner; [done|exact Hw1|]; eexists; split; [done|]; unfold list4; cbn; rewrite !elem_of_cons; tauto).
    rewrite !Hg in H by (intros ?; unfold list4; cbn; rewrite !elem_of_cons; tauto).
    rewrite !raw_pos in H by done.
    assert (∀ p q x y z, orient p q x y + orient p q y z + orient p q z x = orient y x z p + orient x y z q) as O
      by (clear; intros [] [] [] [] []; geo; ring).
    specialize (O (pos m p) (pos m q) (pos m x) (pos m y) (pos m z)). revert H O.
    generalize (orient (pos m p) (pos m q) (pos m x) (pos m y)) (orient (pos m p) (pos m q) (pos m y) (pos m z))
      (orient (pos m p) (pos m q) (pos m z) (pos m x)) (orient (pos m y) (pos m x) (pos m z) (pos m p)) (orient (pos m x) (pos m y) (pos m z) (pos m q)).
    clear. intros. lia.
  Qed.

  Lemma vol44 m w m' ws p q x y z u r1 r2 r3 g : mesh_ok m → mesh_ok m' → valid m w → valid m r1 → valid m r2 → valid m r3 →
    flip44_spec m w m' ws p q x y z u r1 r2 r3 →
    weight m g [p; q; x; y; z; u] → tsum g m' = tsum g m.
  Proof.
    intros Hok Hok' Hw Hw1 Hw2 Hw3 Hs [Hg0 Hg]. destruct (fs44_repl _ _ _ _ _ _ _ _ _ _ _ _ _ Hs) as (id & Hid & Hr).
    pose proof (fs44_ids _ _ _ _ _ _ _ _ _ _ _ _ _ Hs) as Hnd.
    destruct (fs44_ring _ _ _ _ _ _ _ _ _ _ _ _ _ Hs) as (E0 & E1 & E2 & E3).
    pose proof (ok_distinct m Hok _ _ _ _ _ Hw E0) as (N1&N2&N3&N4&N5&N6)%NoDup4.
    pose proof (tsum_replaces g _ _ _ _ _ _ Hok Hok' Hr Hnd) as H.
    assert (NoDup [w_tet w; w_tet r1; id; w_tet r3]) as Hnn.
    { pose proof (rp_new _ _ _ _ _ _ Hr) as Hn.
      pose proof (Hn (w_tet w) _ ltac:(by left)) as X0. pose proof (Hn (w_tet r1) _ ltac:(by right; left)) as X1.
      pose proof (Hn id _ ltac:(by right; right; left)) as X2. pose proof (Hn (w_tet r3) _ ltac:(by right; right; right; left)) as X3.
      assert (id ≠ w_tet w) by (intros ->; rewrite X0 in X2; injection X2; congruence).
      assert (id ≠ w_tet r1) by (intros ->; rewrite X1 in X2; injection X2; congruence).
      assert (id ≠ w_tet r3) by (intros ->; rewrite X3 in X2; injection X2; congruence).
      apply NoDup4 in Hnd as (?&?&?&?&?&?). apply NoDup4. repeat split; congruence. }
    specialize (H Hnn). cbn in H.
    rewrite (term_walker g m w _ Hg0 Hw E0), (term_walker g m r1 _ Hg0 Hw1 E1), (term_walker g m r2 _ Hg0 Hw2 E2), (term_walker g m r3 _ Hg0 Hw3 E3) in H.
    assert (known m p) as Ka by (eapply known_corner; [done|exact Hw|]; eexists; split; [done|]; unfold list4; cbn; rewrite !elem_of_cons; tauto).
    assert (known m q) as Kb by (eapply known_corner; [done|exact Hw|]; eexists; split; [done|]; unfold list4; cbn; rewrite !elem_of_cons; tauto).
    assert (known m x) as Kc by (eapply known_corner; [done|exact Hw|]; eexists; split; [done|]; unfold list4; cbn; rewrite !elem_of_cons; tauto).
    assert (known m y) as Kd by (eapply known_corner; [done|exact Hw|]; eexists; split; [done|]; unfold list4; cbn; rewrite !elem_of_cons; tauto).
    assert (known m z) as Ke by (eapply known_corner; [done|exact Hw1|]; eexists; split; [done|]; unfold list4; cbn; rewrite !elem_of_cons; tauto).
    assert (known m u) as Kf by (eapply known_corner; [done|exact Hw2|]; eexists; split; [done|]; unfold list4; cbn; rewrite !elem_of_cons; tauto).
    rewrite !Hg in H by (intros ?; unfold list4; cbn; rewrite !elem_of_cons; tauto).
    rewrite !raw_pos in H by done.
    assert (∀ p q x y z u, orient p q x y + orient p q y z + orient p q z u + orient p q u x =
      orient x z u q + orient q y x z + orient y p x z + orient z x u p) as O
      by (clear; intros [] [] [] [] [] []; geo; ring).
    specialize (O (pos m p) (pos m q) (pos m x) (pos m y) (pos m z) (pos m u)). revert H O.
    generalize (orient (pos m p) (pos m q) (pos m x) (pos m y)) (orient (pos m p) (pos m q) (pos m y) (pos m z))
      (orient (pos m p) (pos m q) (pos m z) (pos m u)) (orient (pos m p) (pos m q) (pos m u) (pos m x))
      (orient (pos m x) (pos m z) (pos m u) (pos m q)) (orient (pos m q) (pos m y) (pos m x) (pos m z))
      (orient (pos m y) (pos m p) (pos m x) (pos m z)) (orient (pos m z) (pos m x) (pos m u) (pos m p)).
    clear. intros. lia.
  Qed.

  (** ** Histories. *)
  Lemma weight_raw m m' cs : (∀ v, idx_ori m' v = idx_ori m v) → weight m (raw m') cs.
  Proof. intros H. split; [intros; by apply raw_even|]. intros vs _. by apply raw_ext. Qed.
  Lemma weight_solid m m' cs : (∀ v, idx_ori m' v = idx_ori m v) → GHOST ∉ cs → weight m (solid m') cs.
  Proof.
    intros H Hn. split; [intros; by apply solid_even|]. intros vs Hvs. rewrite (solid_ext m) by done. unfold solid.
    rewrite no_ghost; [done|]. intros Hg. by apply Hn, Hvs.
  Qed.

  Lemma tet_known m id t v : mesh_ok m → tet_get m id = Some t → v ∈ list4 (t_vs t) → known m v.
  Proof.
    intros Hok Ht Hv. assert (valid m (Walker id 3)) as Hw by (split; [cbn; eauto|cbn; lia]).
    eapply known_corner; [done|exact Hw|]. rewrite (wverts_at m (Walker id 3) t Ht). eexists. split; [done|]. by destruct (t_vs t).
  Qed.

  (** Positions never change, and the sum over all tets is conserved. *)
  Record vol_step m m' : Prop := VolStep {
    vs_pos v p : idx_ori m v = Some p → idx_ori m' v = Some p;
    vs_center : m_center m' = m_center m;
    vs_sum : tsum (raw m') m' = tsum (raw m) m }.
  Lemma vol_step_refl m : vol_step m m.
  Proof. by split. Qed.
  Lemma vol_step_trans m1 m2 m3 : vol_step m1 m2 → vol_step m2 m3 → vol_step m1 m3.
  Proof. intros [A1 A2 A3] [B1 B2 B3]. split; [eauto|congruence..]. Qed.

  Lemma vol_step_ext m m' : mesh_ok m → (∀ id, t_vs <$> tet_get m' id = t_vs <$> tet_get m id) → im_keys (m_tets m') = im_keys (m_tets m) →
    (∀ v p, idx_ori m v = Some p → idx_ori m' v = Some p) → m_center m' = m_center m → vol_step m m'.
  Proof.
    intros Hok Ht Hk Hp Hc. split; [done..|]. unfold tsum. rewrite Hk. apply sum_ext. intros id _. unfold term.
    specialize (Ht id). destruct (tet_get m' id) as [t'|], (tet_get m id) as [t|] eqn:E; try done. cbn in Ht. injection Ht as ->.
    assert (∀ v, v ∈ list4 (t_vs t) → idx_ori m' v = idx_ori m v) as H.
    { intros v Hv. destruct (tet_known m id t v Hok E Hv) as [p Ep]. rewrite Ep. by apply Hp. }
    unfold raw, orient_3d. unfold list4 in H. by rewrite !H by (rewrite !elem_of_cons; tauto).
  Qed.

  Lemma replaces_vol_step m m' old new ea ed : replaces m m' old new ea ed → tsum (raw m') m' = tsum (raw m') m → vol_step m m'.
  Proof.
    intros Hr Hs. assert (∀ v, idx_ori m' v = idx_ori m v) as Hi by (intros; by eapply idx_same). split.
    - intros v p. by rewrite Hi.
    - apply (rp_center _ _ _ _ _ _ Hr).
    - rewrite Hs. apply tsum_ext. intros. by apply raw_ext.
  Qed.

  Lemma keys_npi m m' : mesh_ok m → mesh_ok m' → (∀ id, is_Some (tet_get m' id) ↔ is_Some (tet_get m id)) →
    im_keys (m_tets m') ≡ₚ im_keys (m_tets m).
  Proof.
    intros Hok Hok' H. apply NoDup_Permutation; [apply StronglySorted_lt_NoDup, im_keys_sorted..|].
    intros k. rewrite !elem_of_im_keys by (by apply ok_ids_tets). apply H.
  Qed.

  Lemma step14_vol m w v m' ws : mesh_ok m → valid m w → is_Some (im_get (m_verts m) v) → flip14_spec m w v m' ws → mesh_ok m' → vol_step m m'.
  Proof.
    intros Hok Hw Hv Hs Hok'. destruct (fs14_repl _ _ _ _ _ Hs) as (a & b & c & d & id1 & id2 & id3 & _ & _ & _ & Hr).
    eapply replaces_vol_step; [exact Hr|]. pose proof Hw as [[t Ht] _]. eapply vol14; [done..|exact Ht|]. apply weight_raw. intros; by eapply idx_same.
  Qed.
  Lemma step23_vol m w m' ws a b c d e o id2 : mesh_ok m → valid m w → flip23_spec m w m' ws a b c d e o id2 → mesh_ok m' → vol_step m m'.
  Proof.
    intros Hok Hw Hs Hok'. pose proof (fs23_repl _ _ _ _ _ _ _ _ _ _ _ Hs) as Hr.
    eapply replaces_vol_step; [exact Hr|]. eapply vol23; [done..|]. apply weight_raw. intros; by eapply idx_same.
  Qed.
  Lemma step32_vol m w m' ws p q x y z o1 o2 : mesh_ok m → valid m w → flip32_spec m w m' ws p q x y z o1 o2 → mesh_ok m' → vol_step m m'.
  Proof.
    intros Hok Hw Hs Hok'. pose proof (fs32_repl _ _ _ _ _ _ _ _ _ _ _ Hs) as Hr.
    eapply replaces_vol_step; [exact Hr|]. eapply vol32; [done..|]. apply weight_raw. intros; by eapply idx_same.
  Qed.
  Lemma wverts_valid m w vs : (w_edge w < 12)%nat → w_verts m w = Some vs → valid m w.
  Proof. intros He Hv. split; [|done]. unfold w_verts, w_first in Hv. destruct (tet_get m (w_tet w)); [eauto|done]. Qed.

  Lemma step44_vol m w : mesh_ok m → flip44_ready m w → roomy m 1 1 →
    ∃ m' ws, flip44_unchecked m w = Some (m', ws) ∧ mesh_ok m' ∧ vol_step m m' ∧
      ∀ t, tet_get m (w_tet w) = Some t →
        (∀ r1 r2 r3, ring_next m w = Some r1 → ring_next m r1 = Some r2 → ring_next m r2 = Some r3 →
           ∀ v t, v ∈ [w_tet w; w_tet r1; w_tet r2; w_tet r3] → tet_get m v = Some t → GHOST ∉ list4 (t_vs t)) →
        tsum (solid m') m' = tsum (solid m) m.
  Proof.
    intros Hok (Hw & r1 & r2 & r3 & x & z & R1 & R2 & R3 & R4 & Hne & Ex & Ez & Hj) Hr. apply roomy_id in Hr.
    destruct (wverts_ex m w Hw) as (p & q & x' & y & Ev).
    assert (x' = x) as -> by (destruct (walker_accessors m w p q x' y Ev) as (_&_&E3&E4&_); congruence).
    destruct (flip44_step m w r1 r2 r3 p q x y z Hok Hw Ev R1 R2 R3 R4 Hne Ez Hj) as (m' & ws & u & E & Hs & Hok'); [by eapply room_weaken|].
    exists m', ws. split; [done|]. split; [done|].
    destruct (ring_info m w r1 _ _ _ _ Hok Hw Ev R1) as (V1 & _).
    destruct (fs44_ring _ _ _ _ _ _ _ _ _ _ _ _ _ Hs) as (_ & E1 & E2 & E3).
    destruct (ring_info m r1 r2 _ _ _ _ Hok V1 E1 R2) as (V2 & _).
    destruct (ring_info m r2 r3 _ _ _ _ Hok V2 E2 R3) as (V3 & _).
    destruct (fs44_repl _ _ _ _ _ _ _ _ _ _ _ _ _ Hs) as (id' & _ & Hrep).
    assert (∀ v, idx_ori m' v = idx_ori m v) as Hi by (intros; by eapply idx_same).
    split.
    - eapply replaces_vol_step; [exact Hrep|]. apply (vol44 m w m' ws p q x y z u r1 r2 r3 (raw m') Hok Hok' Hw V1 V2 V3 Hs). by apply weight_raw.
    - intros t0 Ht0 Hng. rewrite (vol44 m w m' ws p q x y z u r1 r2 r3 (solid m') Hok Hok' Hw V1 V2 V3 Hs).
      + apply tsum_ext. intros. by apply solid_ext.
      + apply weight_solid; [done|]. specialize (Hng r1 r2 r3 R1 R2 R3).
        assert (∀ w' vs, valid m w' → w_verts m w' = Some vs → w_tet w' ∈ [w_tet w; w_tet r1; w_tet r2; w_tet r3] → GHOST ∉ list4 vs) as Hx.
        { intros w' vs Hw' Hv' Hin Hg. pose proof Hw' as [[t' Ht'] _]. apply (Hng (w_tet w') t' Hin Ht').
          destruct (wverts_in m w' vs Hw' Hv') as (vs' & E1' & E2'). unfold vs_of in E1'. rewrite Ht' in E1'. apply (inj Some) in E1'. subst vs'. by apply E2'. }
        pose proof (Hx w _ Hw Ev ltac:(rewrite !elem_of_cons; tauto)) as G0. pose proof (Hx r2 _ V2 E2 ltac:(rewrite !elem_of_cons; tauto)) as G2.
        unfold list4 in G0, G2. cbn [q0 q1 q2 q3] in G0, G2. rewrite !elem_of_cons, elem_of_nil in G0, G2. rewrite !elem_of_cons, elem_of_nil. tauto.
  Qed.

  Lemma op_vol m o m' : mesh_ok m → admissible m o → run_op m o = Some m' → vol_step m m'.
  Proof.
    intros Hok Ha. destruct o as [p v|w p v|w v|w|w|w|w|w|b|w b|w b]; cbn [run_op admissible] in *.
    - destruct (add_vertex_step m p v Hok Ha) as (m1 & id & -> & Hok' & Hf & _ & _ & _ & Hoth & _ & _ & Et & _ & _ & Ec).
      intros H. cbn in H. injection H as <-. apply vol_step_ext; [done|unfold tet_get; by rewrite Et|by rewrite Et| |done].
      intros x p'. unfold idx_ori. rewrite Ec. destruct (N.eqb x GHOST); [done|]. destruct (decide (x = id)) as [->|Hx]; [by rewrite Hf|]. by rewrite Hoth.
    - destruct Ha as (Hn & Hw & Hc & Hr).
      destruct (add_vertex_step m p v Hok Hn) as (m1 & id & -> & Hok1 & Hf & Hna & Hng & Hid & Hoth & _ & Ee & Et & _ & _ & Ec).
      destruct (step14 m1 w id) as (m2 & ws & -> & Hs & Hg & _); [done| | | | |done|].
      + by apply (valid_tets _ _ _ Et).
      + revert Hc. unfold canonical_start, w_first, tet_get. by rewrite Et.
      + revert Hr. unfold roomy. by rewrite Et, Ee.
      + by rewrite Hid.
      + intros H. cbn in H. injection H as <-. eapply vol_step_trans.
        * apply (vol_step_ext m m1); [done|unfold tet_get; by rewrite Et|by rewrite Et| |done].
          intros x p'. unfold idx_ori. rewrite Ec. destruct (N.eqb x GHOST); [done|]. destruct (decide (x = id)) as [->|Hx]; [by rewrite Hf|]. by rewrite Hoth.
        * eapply step14_vol; [done| | |done|apply Hg]; [by apply (valid_tets _ _ _ Et)|by rewrite Hid].
    - destruct Ha as (Hw & Hc & Hr & Hv & Hna). destruct (step14 m w v Hok Hw Hc Hr Hv Hna) as (m2 & ws & -> & Hs & Hg & _).
      intros H. cbn in H. injection H as <-. eapply step14_vol; try done. apply Hg.
    - destruct Ha as [Ha Hr]. destruct (step23 m w Hok Ha Hr) as (m2 & ws & a & b & c & d & e & o & id2 & -> & Hs & Hg & _).
      intros H. cbn in H. injection H as <-. eapply step23_vol; try done; [apply Ha|apply Hg].
    - destruct (step32 m w Hok Ha) as (m2 & ws & p & q & x & y & z & o1 & o2 & -> & Hs & Hg & _).
      intros H. cbn in H. injection H as <-. eapply step32_vol; try done; [apply Ha|apply Hg].
    - destruct Ha as [Ha Hr]. destruct (step44_vol m w Hok Ha Hr) as (m2 & ws & -> & _ & Hs & _).
      intros H. cbn in H. by injection H as <-.
    - destruct Ha as [Hw Ha]. destruct (flip23_unlocked_cases m w Hw) as [[_ ->]|[Hl ->]].
      + intros H. cbn in H. injection H as <-. apply vol_step_refl.
      + destruct (Ha Hl) as [Ha' Hr]. destruct (step23 m w Hok Ha' Hr) as (m2 & ws & a & b & c & d & e & o & id2 & -> & Hs & Hg & _).
        intros H. cbn in H. injection H as <-. eapply step23_vol; try done. apply Hg.
    - destruct Ha as [Hw Ha]. destruct (flip32_unlocked_cases m w Hok Hw) as [[_ ->]|(H3 & Hl & ->)].
      + intros H. cbn in H. injection H as <-. apply vol_step_refl.
      + destruct (step32 m w Hok (conj Hw (conj H3 (Ha H3)))) as (m2 & ws & p & q & x & y & z & o1 & o2 & -> & Hs & Hg & _).
        intros H. cbn in H. injection H as <-. eapply step32_vol; try done. apply Hg.
    - destruct (set_track_step m b Hok) as (m2 & -> & Hok' & _ & Ev & _ & _ & Et & Ec).
      intros H. injection H as <-. apply vol_step_ext; [done|unfold tet_get; by rewrite Et|by rewrite Et| |done].
      intros x p'. unfold idx_ori. by rewrite Ec, Ev.
    - destruct (wverts_ex m w Ha) as (p & q & x & y & E).
      destruct (set_tri_lock_step m w b (p, q, x) Hok Ha) as (m2 & -> & Hok' & Hnf & _ & Hsr).
      { by apply (walker_accessors m w p q x y). }
      intros H. injection H as <-.
      assert (∀ id, t_vs <$> tet_get m2 id = t_vs <$> tet_get m id) as Hvs.
      { intros id. specialize (Hnf id). destruct (tet_get m2 id), (tet_get m id); try done. cbn in Hnf. apply (inj Some) in Hnf. unfold no_flags in Hnf. cbn. congruence. }
      assert (∀ v, idx_ori m2 v = idx_ori m v) as Hi.
      { intros v. unfold idx_ori. by rewrite (sr_verts _ _ Hsr), (sr_center _ _ Hsr). }
      split; [intros v p'; by rewrite Hi|apply (sr_center _ _ Hsr)|].
      unfold tsum. rewrite (sum_perm _ _ _ (keys_npi m m2 Hok Hok' (λ id, is_Some_fmap_eq _ _ _ _ (Hvs id)))).
      apply sum_ext. intros id _. unfold term. specialize (Hvs id). destruct (tet_get m2 id), (tet_get m id); try done. cbn in Hvs. injection Hvs as ->. by apply raw_ext.
    - destruct (set_edge_lock_step m w b Hok Ha) as (m2 & e & ue & -> & Hok' & _ & _ & _ & _ & _ & Ev & _ & Et & _ & _ & Ec).
      intros H. injection H as <-. apply vol_step_ext; [done|unfold tet_get; by rewrite Et|by rewrite Et| |done].
      intros x p'. unfold idx_ori. by rewrite Ec, Ev.
  Qed.

  Lemma ops_vol m os m' : mesh_ok m → all_admissible m os → run_ops m os = Some m' → vol_step m m' ∧ mesh_ok m'.
  Proof.
    revert m. induction os as [|o os IH]; intros m Hok Ha Hr; cbn in *.
    - injection Hr as <-. split; [apply vol_step_refl|done].
    - destruct Ha as [Ha1 Ha2]. destruct (op_step m o Hok Ha1) as (m1 & E & Hg & _). rewrite E in Hr. cbn [mbind option_bind] in Hr.
      destruct (IH m1 (gs_ok _ _ Hg) (Ha2 _ E) Hr) as [Hv Hok']. split; [|done]. eapply vol_step_trans; [|done]. by eapply op_vol.
  Qed.

  Lemma solid_hull m : solid_volume_x6 m - hull_volume_x6 m = tsum (raw m) m.
  Proof.
    unfold solid_volume_x6, hull_volume_x6, tsum. rewrite sum_sub. apply sum_ext. intros id _. unfold term.
    destruct (tet_get m id) as [t|] eqn:Ht.
    - unfold raw. destruct (decide (GHOST ∈ list4 (t_vs t))) as [Hg|Hg].
      + assert (tet_volume_x6 m id = Some None) as ->.
        { unfold tet_volume_x6. rewrite Ht. cbn [mbind option_bind]. by rewrite (proj2 (has_ghost_in _) Hg). }
        rewrite (proj2 (has_ghost_in _) Hg). lia.
      + rewrite (volume_orient m id t Ht Hg), (no_ghost _ Hg). destruct (orient_3d m _ _ _ _); cbn; lia.
    - unfold tet_volume_x6. rewrite Ht. done.
  Qed.
  Lemma solid_tsum m : solid_volume_x6 m = tsum (solid m) m.
  Proof.
    unfold solid_volume_x6, tsum. apply sum_ext. intros id _. unfold term.
    destruct (tet_get m id) as [t|] eqn:Ht.
    - unfold solid, raw. destruct (decide (GHOST ∈ list4 (t_vs t))) as [Hg|Hg].
      + assert (tet_volume_x6 m id = Some None) as ->.
        { unfold tet_volume_x6. rewrite Ht. cbn [mbind option_bind]. by rewrite (proj2 (has_ghost_in _) Hg). }
        by rewrite (proj2 (has_ghost_in _) Hg).
      + rewrite (volume_orient m id t Ht Hg), (no_ghost _ Hg). destruct (orient_3d m _ _ _ _); cbn; lia.
    - unfold tet_volume_x6. by rewrite Ht.
  Qed.

  Lemma new_sum sim ctr ps (dflt : T) m : mesh_new sim ctr ps dflt = Some m → tsum (raw m) m = 0.
  Proof.
    intros E. destruct (new_facts sim ctr ps dflt) as (m0 & E' & Hok & Hc & Hp & Hct). rewrite E in E'. injection E' as <-.
    destruct (new_unpack _ _ Hok Hc) as (_ & _ & Hids & T0 & (T1 & T2 & T3 & T4) & _).
    assert (im_keys (m_tets m) ≡ₚ [0; 1; 2; 3; 4]%N) as Hk.
    { apply NoDup_Permutation; [apply StronglySorted_lt_NoDup, im_keys_sorted| |].
      - vm_compute. repeat constructor; rewrite ?elem_of_cons, ?elem_of_nil; intuition discriminate.
      - intros k. rewrite elem_of_im_keys by (by apply ok_ids_tets). apply Hids. }
    unfold tsum. rewrite (sum_perm _ _ _ Hk). cbn [sum_over foldr].
    assert (∀ k vs, t_vs <$> tet_get m k = Some vs → term (raw m) m k = raw m vs) as Ht.
    { intros k vs Ek. unfold term. destruct (tet_get m k); [|done]. injection Ek as ->. done. }
    rewrite (Ht _ _ T0), (Ht _ _ T1), (Ht _ _ T2), (Ht _ _ T3), (Ht _ _ T4).
    assert (∀ i : nat, (i < 4)%nat → known m (N.of_nat i)) as Hkn.
    { intros i Hi. specialize (Hp i Hi). unfold known, idx_ori. destruct (N.eqb (N.of_nat i) GHOST); [done|].
      destruct (im_get (m_verts m) (N.of_nat i)); [done|]. done. }
    pose proof (Hkn 0%nat ltac:(lia)) as K0. pose proof (Hkn 1%nat ltac:(lia)) as K1. pose proof (Hkn 2%nat ltac:(lia)) as K2. pose proof (Hkn 3%nat ltac:(lia)) as K3.
    change (N.of_nat 0) with 0%N in *. change (N.of_nat 1) with 1%N in *. change (N.of_nat 2) with 2%N in *. change (N.of_nat 3) with 3%N in *.
    assert (known m GHOST) as KG by (unfold known, idx_ori; rewrite N.eqb_refl; eexists; reflexivity).
    assert (∀ a b c d o, orient a b c d + (orient b c d o + (orient a d c o + (orient d a b o + (orient c b a o + 0)))) = 0) as O
      by (clear; intros [] [] [] [] []; geo; ring).
    destruct (sim _ _ _ _); rewrite !raw_pos by assumption; apply O.
  Qed.

  Lemma reachable_sum m : reachable m → tsum (raw m) m = 0.
  Proof.
    intros (sim & ctr & ps & d & m0 & os & E & Ha & Er).
    destruct (new_facts sim ctr ps d) as (m0' & E' & Hok & _). rewrite E in E'. injection E' as <-.
    destruct (ops_vol m0 os m Hok Ha Er) as [Hv _]. rewrite (vs_sum _ _ Hv). by eapply new_sum.
  Qed.

  Lemma reachable_volume m : reachable m → solid_volume_x6 m = hull_volume_x6 m.
  Proof. intros Hr. pose proof (solid_hull m). pose proof (reachable_sum m Hr). lia. Qed.

  (** Ghost tets unchanged: the hull term is unchanged. *)
  Lemma hull_same m m' : mesh_ok m → mesh_ok m' → (∀ v p, idx_ori m v = Some p → idx_ori m' v = Some p) → same_ghost_tets m m' →
    hull_volume_x6 m' = hull_volume_x6 m.
  Proof.
    intros Hok Hok' Hp Hs. unfold hull_volume_x6.
    set (h := λ m id, match tet_get m id with
                    | Some t => if has_ghost (list4 (t_vs t))
                                then default 0 (orient_3d m (q0 (t_vs t)) (q1 (t_vs t)) (q2 (t_vs t)) (q3 (t_vs t)))
                                else 0
                    | None => 0 end).
    change (sum_over (h m') (im_keys (m_tets m')) = sum_over (h m) (im_keys (m_tets m))).
    assert (∀ id, h m' id = h m id) as Hh.
    { intros id. unfold h.
      assert (∀ t t' : tet T, tet_get m id = Some t → t_vs t' = t_vs t →
        orient_3d m' (q0 (t_vs t')) (q1 (t_vs t')) (q2 (t_vs t')) (q3 (t_vs t')) = orient_3d m (q0 (t_vs t)) (q1 (t_vs t)) (q2 (t_vs t)) (q3 (t_vs t))) as Ho.
      { intros t t' Ht ->. assert (∀ v, v ∈ list4 (t_vs t) → idx_ori m' v = idx_ori m v) as H.
        { intros v Hv. destruct (tet_known m id t v Hok Ht Hv) as [p Ep]. rewrite Ep. by apply Hp. }
        unfold orient_3d. unfold list4 in H. by rewrite !H by (rewrite !elem_of_cons; tauto). }
      destruct (tet_get m' id) as [t'|] eqn:E', (tet_get m id) as [t|] eqn:E; [| | |done].
      - destruct (has_ghost (list4 (t_vs t'))) eqn:G'.
        + apply has_ghost_in in G'. pose proof (proj2 (Hs id (t_vs t') G')) as Hx. rewrite E, E' in Hx. specialize (Hx eq_refl). injection Hx as Hx.
          rewrite Hx. rewrite (proj2 (has_ghost_in _) G'). rewrite <- Hx. by rewrite (Ho t t).
        + destruct (has_ghost (list4 (t_vs t))) eqn:G; [|done]. pose proof G as G2. apply has_ghost_in in G2. pose proof (proj1 (Hs id (t_vs t) G2)) as Hx.
          rewrite E, E' in Hx. specialize (Hx eq_refl). injection Hx as Hx. congruence.
      - destruct (has_ghost (list4 (t_vs t'))) eqn:G'; [|done]. apply has_ghost_in in G'. pose proof (proj2 (Hs id (t_vs t') G')) as Hx.
        rewrite E, E' in Hx. by specialize (Hx eq_refl).
      - destruct (has_ghost (list4 (t_vs t))) eqn:G; [|done]. apply has_ghost_in in G. pose proof (proj1 (Hs id (t_vs t) G)) as Hx.
        rewrite E, E' in Hx. by specialize (Hx eq_refl). }
    (* terms outside the keys are 0 *)
    assert (∀ m0, mesh_ok m0 → ∀ l, NoDup l → (∀ id, is_Some (tet_get m0 id) → id ∈ l) → sum_over (h m0) (im_keys (m_tets m0)) = sum_over (h m0) l) as Hl.
    { intros m0 Hok0 l Hn Hin. rewrite (sum_perm _ _ _ (keys_elements m0 Hok0)).
      set (D := dom (im_slots (m_tets m0)) : gset N).
      assert (l ≡ₚ elements D ++ elements (list_to_set l ∖ D : gset N)) as Hpm.
      { apply NoDup_Permutation; [done| |].
        - apply NoDup_app. split; [apply NoDup_elements|]. split; [|apply NoDup_elements]. intros x. rewrite !elem_of_elements, elem_of_difference. tauto.
        - intros x. rewrite elem_of_app, !elem_of_elements, elem_of_difference, elem_of_list_to_set. destruct (decide (x ∈ D)) as [Hd|Hd]; [|tauto].
          split; [tauto|]. intros _. apply Hin. by apply elem_of_dom. }
      rewrite (sum_perm _ _ _ Hpm), sum_app.
      assert (sum_over (h m0) (elements (list_to_set l ∖ D : gset N)) = 0) as ->; [|lia].
      assert (∀ l', (∀ x, x ∈ l' → h m0 x = 0) → sum_over (h m0) l' = 0) as Hz.
      { induction l' as [|x l' IH]; intros Hx; [done|]. unfold sum_over in *. cbn [foldr]. rewrite Hx by left. rewrite IH; [done|]. intros y Hy. apply Hx. by right. }
      apply Hz. intros x. rewrite elem_of_elements, elem_of_difference. intros [_ Hd]. unfold h.
      destruct (tet_get m0 x) eqn:E; [|done]. exfalso. apply Hd, elem_of_dom. unfold tet_get, im_get in E. by rewrite E. }
    set (l := elements (dom (im_slots (m_tets m)) ∪ dom (im_slots (m_tets m')) : gset N)).
    assert (∀ id, id ∈ l ↔ is_Some (tet_get m id) ∨ is_Some (tet_get m' id)) as Hin.
    { intros id. unfold l. rewrite elem_of_elements, elem_of_union, !elem_of_dom. done. }
    rewrite (Hl m Hok l), (Hl m' Hok' l); try apply NoDup_elements; try (intros id Hid; apply Hin; tauto).
    apply sum_ext. intros; apply Hh.
  Qed.

  Lemma ops_volume m os m' : mesh_ok m → all_admissible m os → run_ops m os = Some m' →
    solid_volume_x6 m' - hull_volume_x6 m' = solid_volume_x6 m - hull_volume_x6 m ∧
    (same_ghost_tets m m' → solid_volume_x6 m' = solid_volume_x6 m).
  Proof.
    intros Hok Ha Er. destruct (ops_vol m os m' Hok Ha Er) as [Hv Hok'].
    pose proof (solid_hull m). pose proof (solid_hull m'). pose proof (vs_sum _ _ Hv). split; [lia|]. intros Hs.
    pose proof (hull_same m m' Hok Hok' (vs_pos _ _ Hv) Hs). lia.
  Qed.
End vol.
