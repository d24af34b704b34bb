(** [assert_integrity] succeeds exactly on the meshes that are [intact]. *)
From stdpp Require Import base numbers list gmap option fin_sets.
From Coq Require Import NArith ZArith ZifyN ZifyNat ZifyBool Lia.
From Verif Require Import IdMapModel IdMapSpec IdMapProofs IdMapMore WalkerModel WalkerSpec WalkerProofs SortProofs
  MeshModel WalkerMore MeshOps MeshSpec MeshViews Surgery MeshLink MeshRun Integrity IntSpec.
Local Open Scope nat_scope.

Lemma bd_iter {A} (im : idmap A) k x : bounded im → (k, x) ∈ im_iter im ↔ im_get im k = Some x.
Proof.
  intros Hb. unfold im_iter. rewrite elem_of_list_omap. split.
  - intros (k' & Hk' & E). destruct (im_slots im !! k') eqn:E'; cbn in E; [|done]. injection E as -> ->. done.
  - intros E. exists k. unfold im_get in E. rewrite E. split; [|done]. apply elem_of_N_range. split; [lia|]. by eapply Hb.
Qed.
Lemma bd_keys {A} (im : idmap A) k : bounded im → k ∈ im_keys im ↔ is_Some (im_get im k).
Proof.
  intros Hb. unfold im_keys. rewrite elem_of_list_fmap. split.
  - intros ([k' x] & -> & H%bd_iter); [|done]. eauto.
  - intros [x H]. exists (k, x). split; [done|]. by apply bd_iter.
Qed.
Lemma forallb_iter {A} (f : N * A → bool) (im : idmap A) : bounded im → forallb f (im_iter im) = true ↔ ∀ k x, im_get im k = Some x → f (k, x) = true.
Proof.
  intros Hb. rewrite forallb_forall. split; intros H.
  - intros k x E. apply H, elem_of_list_In. by apply bd_iter.
  - intros [k x] E%elem_of_list_In%bd_iter; [|done]. by apply H.
Qed.
Lemma forallb_seq f a n : forallb f (seq a n) = true ↔ ∀ i, a <= i < a + n → f i = true.
Proof.
  rewrite forallb_forall. split; intros H i Hi; apply H; [apply in_seq; lia|]. apply in_seq in Hi. lia.
Qed.
Lemma remove_dups_len `{EqDecision A} (l : list A) : length (remove_dups l) = length l ↔ NoDup l.
Proof.
  split; [|intros H; by rewrite remove_dups_nodup].
  assert (∀ l : list A, length (remove_dups l) <= length l) as Hle.
  { clear. induction l as [|x l IH]; cbn; [done|]. case_decide; cbn; lia. }
  induction l as [|x l IH]; cbn; [intros _; constructor|]. case_decide as Hd.
  - intros E. specialize (Hle l). lia.
  - cbn. intros E. constructor; [done|]. apply IH. lia.
Qed.
Lemma sorted_2_idem p : (p.1 < p.2)%N → sorted_2 p = p.
Proof. destruct p as [a b]. apply sorted_2_id. Qed.
Lemma sorted_2_sym a b : sorted_2 (a, b) = sorted_2 (b, a).
Proof. unfold sorted_2. destruct (N.ltb_spec b a), (N.ltb_spec a b); try done; [lia|]. f_equal; lia. Qed.

Section int.
  Context {V T : Type}.
  Implicit Types (m : mesh V T) (w : walker).

  Lemma vert_ok m v vt : ai_vertex m (v, vt) = true ↔ w_tet (v_tet vt) ≠ invalid_id ∧ w_first m (v_tet vt) = Some v.
  Proof.
    unfold ai_vertex. cbn [fst snd]. rewrite andb_true_iff, negb_true_iff, N.eqb_neq. destruct (w_first m (v_tet vt)) as [x|]; [|naive_solver].
    rewrite N.eqb_eq. naive_solver.
  Qed.
  Lemma edge_okk e ue : ai_edge (e, ue) = true ↔ ((ue_vs ue).1 < (ue_vs ue).2)%N.
  Proof. unfold ai_edge. cbn [snd]. rewrite andb_true_iff, negb_true_iff, N.eqb_neq, N.ltb_lt. lia. Qed.

  Lemma no_dup_ok m : bounded (m_edges m) → (∀ e ue, im_get (m_edges m) e = Some ue → ((ue_vs ue).1 < (ue_vs ue).2)%N) → is_Some (im_len (m_edges m)) →
    ai_no_dup_edges m = true ↔ (∀ e e' ue ue', im_get (m_edges m) e = Some ue → im_get (m_edges m) e' = Some ue' → ue_vs ue = ue_vs ue' → e = e').
  Proof.
    intros Hb Hs [n En]. unfold ai_no_dup_edges. rewrite En.
    assert (n = N.of_nat (length (im_iter (m_edges m)))) as ->.
    { unfold im_len in En. destruct (_ && _); [|done]. injection En as <-. f_equal.
      rewrite <- (size_dom (im_slots (m_edges m))). rewrite <- (fmap_length fst (im_iter (m_edges m))).
      change ((im_iter (m_edges m)).*1) with (im_keys (m_edges m)).
      assert (dom (im_slots (m_edges m)) = list_to_set (im_keys (m_edges m)) :> gset N) as ->.
      { apply set_eq. intros x. rewrite elem_of_dom, elem_of_list_to_set, bd_keys by done. done. }
      apply size_list_to_set. apply StronglySorted_lt_NoDup, im_keys_sorted. }
    rewrite N.eqb_eq. unfold im_values.
    set (f := λ x : N * uedge, sorted_2 (ue_vs x.2)). set (it := im_iter (m_edges m)) in *.
    assert ((λ e, sorted_2 (ue_vs e)) <$> it.*2 = f <$> it) as -> by by rewrite <- list_fmap_compose.
    assert (NoDup it) as Hnd.
    { apply (NoDup_fmap_1 fst). change (it.*1) with (im_keys (m_edges m)). apply StronglySorted_lt_NoDup, im_keys_sorted. }
    assert (∀ e ue, (e, ue) ∈ it ↔ im_get (m_edges m) e = Some ue) as Hit by (intros; by apply bd_iter).
    transitivity (NoDup (f <$> it)).
    { rewrite <- remove_dups_len. rewrite fmap_length. lia. }
    split.
    - intros Hd e e' ue ue' E1 E2 Eq. apply Hit in E1 as H1. apply Hit in E2 as H2.
      apply elem_of_list_lookup in H1 as [i Hi]. apply elem_of_list_lookup in H2 as [j Hj].
      assert (i = j) as ->; [|congruence]. apply (NoDup_lookup _ i j (f (e, ue)) Hd).
      + rewrite list_lookup_fmap, Hi. done.
      + rewrite list_lookup_fmap, Hj. cbn. unfold f. cbn. by rewrite Eq.
    - intros Hu. apply NoDup_fmap_2_strong; [|done]. intros [e ue] [e' ue'] H1%Hit H2%Hit. unfold f. cbn.
      rewrite !sorted_2_idem by eauto. intros Eq. assert (e = e') as -> by eauto. congruence.
  Qed.

  Lemma any_edge vs (e : N) : N.eqb e (s0 vs) || N.eqb e (s1 vs) || N.eqb e (s2 vs) || N.eqb e (s3 vs) || N.eqb e (s4 vs) || N.eqb e (s5 vs) = true ↔
    ∃ k, k < 12 ∧ get6 vs (undir_idx k) = e.
  Proof.
    split; [|intros (k & Hk & <-); by eapply undir_idx_any]. destruct vs as [x0 x1 x2 x3 x4 x5]. cbn [s0 s1 s2 s3 s4 s5].
    rewrite !orb_true_iff, !N.eqb_eq. intros H.
    assert (∀ i, i < 6 → ∃ k, k < 12 ∧ undir_idx k = i) as Hall.
    { intros i Hi. assert (existsb (λ k, Nat.eqb (undir_idx k) i) (seq 0 12) = true) as (k & Hk & Ek)%existsb_exists.
      { do 6 (destruct i as [|i]; [vm_compute; reflexivity|]). lia. }
      apply in_seq in Hk. apply Nat.eqb_eq in Ek. exists k. split; [lia|done]. }
    destruct_or! H; subst e;
      [destruct (Hall 0 ltac:(lia)) as (k & Hk & Ek)|destruct (Hall 1 ltac:(lia)) as (k & Hk & Ek)|destruct (Hall 2 ltac:(lia)) as (k & Hk & Ek)|
       destruct (Hall 3 ltac:(lia)) as (k & Hk & Ek)|destruct (Hall 4 ltac:(lia)) as (k & Hk & Ek)|destruct (Hall 5 ltac:(lia)) as (k & Hk & Ek)];
      exists k; (split; [done|]); rewrite Ek; done.
  Qed.
  Lemma used_ok m : bounded (m_edges m) → bounded (m_tets m) →
    ai_edges_used m = true ↔ (∀ e, is_Some (im_get (m_edges m) e) → ∃ w, valid m w ∧ undir_edge m w = Some e).
  Proof.
    intros Hb Ht. unfold ai_edges_used. rewrite forallb_forall. split; intros H e He.
    - apply bd_keys, elem_of_list_In, H, existsb_exists in He as (t & Hin & Hk); [|done]. cbv zeta in Hk. apply any_edge in Hk as (k & Hk & Ek).
      apply elem_of_list_In, elem_of_list_fmap in Hin as ([id t'] & -> & Hin%bd_iter); [|done]. exists (Walker id k).
      split; [split; [by eexists|done]|]. unfold undir_edge. cbn [w_tet w_edge]. unfold tet_get. rewrite Hin. cbn in *. by rewrite Ek.
    - apply elem_of_list_In, bd_keys in He; [|done]. destruct (H e He) as (w & [[t Hw] Hk] & Hu). apply existsb_exists. exists t. split.
      + apply elem_of_list_In, elem_of_list_fmap. exists (w_tet w, t). split; [done|]. by apply bd_iter.
      + cbv zeta. apply any_edge. exists (w_edge w). split; [done|]. unfold undir_edge in Hu. rewrite Hw in Hu. by injection Hu.
  Qed.

  (** ** Tets *)
  Lemma rot_mod k x : w_edge x < 12 → w_edge (rot k x) mod 4 = w_edge x mod 4.
  Proof. destruct x as [id e]. intros He. cbn [w_edge] in He. destruct k as [|[|k]]; [done|..]; case12 e He; done. Qed.
  Lemma rot_fourth m k x : w_edge x < 12 → w_fourth m (rot k x) = w_fourth m x.
  Proof. destruct x as [id e]. intros He. cbn [w_edge] in He. destruct k as [|[|k]]; [done|..]; case12 e He; done. Qed.
  Lemma to_adj_rot m w t : valid m w → tet_get m (w_tet w) = Some t → to_adj m w = Some (rot (w_edge w / 4) (get4 (t_opp t) (w_edge w mod 4))).
  Proof.
    destruct w as [id e]. intros [_ He] Ht. cbn [w_tet w_edge] in *. unfold to_adj, to_adj_ae. cbn [w_tet w_edge]. rewrite Ht. cbn [mbind option_bind].
    case12 e He; done.
  Qed.
  Lemma to_adj_range m w : is_Some (to_adj m w) → w_edge w < 12.
  Proof.
    unfold to_adj, to_adj_ae. destruct (tet_get m (w_tet w)); [|by intros [??]]. cbn [mbind option_bind]. intros [x H].
    destruct (le_lt_dec 12 (w_edge w)) as [Hle|]; [|done]. assert (3 <= w_edge w / 4) as Hq by (change 3 with (12 / 4); by apply Nat.div_le_mono).
    destruct (w_edge w / 4) as [|[|[|q]]]; [lia..|done].
  Qed.
  Lemma verts_tet m w vs : w_verts m w = Some vs → is_Some (tet_get m (w_tet w)).
  Proof. unfold w_verts, w_first. destruct (tet_get m (w_tet w)); [eauto|done]. Qed.
  Lemma verts_get m w t : tet_get m (w_tet w) = Some t → w_verts m w = Some (verts_at (t_vs t) (w_edge w)).
  Proof. intros E. unfold w_verts, w_first, w_second, w_third, w_fourth. by rewrite E. Qed.

  Definition walker_intact m w : Prop := ∃ a b c d w' x w'' e ue, w_verts m w = Some (A4 a b c d) ∧
    to_adj m w = Some w' ∧ w_verts m w' = Some (A4 b a c x) ∧ to_adj m w' = Some w'' ∧ w_verts m w'' = Some (A4 a b c d) ∧
    undir_edge m w = Some e ∧ im_get (m_edges m) e = Some ue ∧ sorted_2 (a, b) = sorted_2 (ue_vs ue) ∧
    (m_track m = true → w_edge w < 4 → is_Some (m_trimap m !! tri_key (a, b, c))).

  Lemma tri_of_verts m w a b c d : w_verts m w = Some (A4 a b c d) → w_tri m w = Some (a, b, c).
  Proof. unfold w_verts, w_tri. destruct (w_first m w), (w_second m w), (w_third m w), (w_fourth m w); cbn; naive_solver. Qed.
  Lemma pair_of_verts m w a b c d : w_verts m w = Some (A4 a b c d) → w_pair m w = Some (a, b).
  Proof. unfold w_verts, w_pair. destruct (w_first m w), (w_second m w), (w_third m w), (w_fourth m w); cbn; naive_solver. Qed.
  Lemma fourth_of_verts m w a b c d : w_verts m w = Some (A4 a b c d) → w_fourth m w = Some d.
  Proof. unfold w_verts. destruct (w_first m w), (w_second m w), (w_third m w), (w_fourth m w); cbn; naive_solver. Qed.

  Lemma list4_A4 (v : arr4 N) a b c d : list4 v = list4 (A4 a b c d) ↔ v = A4 a b c d.
  Proof. destruct v. unfold list4. cbn. split; [by intros [= -> -> -> ->]|by intros [= -> -> -> ->]]. Qed.

  Lemma walker_ok m t w : valid m w → tet_get m (w_tet w) = Some t → w_edge (get4 (t_opp t) (w_edge w mod 4)) < 12 →
    ai_walker m t w = true ↔ walker_intact m w.
  Proof.
    intros Hw Ht Hr. unfold ai_walker. rewrite (to_adj_rot m w t Hw Ht), (verts_get m w t Ht). set (x := get4 (t_opp t) (w_edge w mod 4)) in *.
    set (y := rot (w_edge w / 4) x). rewrite <- (rot_fourth m (w_edge w / 4) x Hr). fold y. destruct (verts_at (t_vs t) (w_edge w)) as [a b c d] eqn:Ev.
    assert (w_verts m w = Some (A4 a b c d)) as Ew by by rewrite (verts_get m w t Ht), Ev.
    assert (to_adj m w = Some y) as Ea by apply (to_adj_rot m w t Hw Ht). cbv zeta. cbn [q0 q1 q2 q3].
    rewrite (tri_of_verts m w a b c d Ew).
    split.
    - destruct (w_fourth m y) as [f|] eqn:Ef; [|done]. destruct (w_verts m y) as [va|] eqn:Ey; [|done]. destruct (to_adj m y) as [z|] eqn:Ez; [|done].
      destruct (undir_edge m w) as [e|] eqn:Ee; [|done]. rewrite !andb_true_iff. intros [[[H1 H2] H3] H4].
      apply bool_decide_eq_true, list4_A4 in H1 as ->. destruct (w_verts m z) as [vb|] eqn:Evb; [|done]. apply bool_decide_eq_true, list4_A4 in H2 as ->.
      destruct (im_get (m_edges m) e) as [ue|] eqn:Eue; [|done]. apply bool_decide_eq_true in H3.
      exists a, b, c, d, y, f, z, e, ue. do 7 (split; [done|]). split; [by rewrite sorted_2_sym|].
      intros Htr Hlt. rewrite Htr, (proj2 (Nat.ltb_lt _ _) Hlt) in H4. cbn in H4. by apply bool_decide_eq_true in H4.
    - intros (a' & b' & c' & d' & w' & f & w'' & e & ue & H1 & H2 & H3 & H4 & H5 & H6 & H7 & H8 & H9). rewrite Ew in H1. injection H1 as <- <- <- <-.
      rewrite Ea in H2. injection H2 as <-. rewrite (fourth_of_verts _ _ _ _ _ _ H3), H3, H4, H6, H5, H7. rewrite !andb_true_iff.
      split; [split; [split|]|].
      + by apply bool_decide_eq_true.
      + by apply bool_decide_eq_true.
      + apply bool_decide_eq_true. by rewrite sorted_2_sym.
      + apply orb_true_iff. destruct (m_track m); [|left; by rewrite andb_false_r]. destruct (Nat.ltb_spec (w_edge w) 4); [right|by left].
        apply bool_decide_eq_true. by apply H9.
  Qed.

  Lemma opp_range m t id i : tet_get m id = Some t → i < 4 → ai_walker m t (Walker id i) = true ∨ walker_intact m (Walker id i) →
    w_edge (get4 (t_opp t) i) < 12.
  Proof.
    intros Ht Hi H. assert (valid m (Walker id i)) as Hw by (split; [by eexists|cbn; lia]).
    assert (to_adj m (Walker id i) = Some (get4 (t_opp t) i)) as E.
    { rewrite (to_adj_rot m _ t Hw Ht). cbn [w_edge]. rewrite Nat.div_small, Nat.mod_small by done. done. }
    apply (to_adj_range m). destruct H as [H|H].
    - unfold ai_walker in H. rewrite E in H. destruct (w_verts m (Walker id i)) as [vi|]; [|done]. destruct (w_fourth m _) as [f|]; [|done]. destruct (w_verts m (get4 (t_opp t) i)) as [va|]; [|done].
      destruct (to_adj m (get4 (t_opp t) i)) as [z|]; [eauto|done].
    - destruct H as (a & b & c & d & w' & x & w'' & e & ue & _ & H2 & _ & H4 & _). rewrite E in H2. injection H2 as <-. eauto.
  Qed.

  Lemma walkers_ok m id t : tet_get m id = Some t →
    forallb (λ i, ai_walker m t (Walker id i)) (seq 0 12) = true ↔ ∀ i, i < 12 → walker_intact m (Walker id i).
  Proof.
    intros Ht. rewrite forallb_seq. split; intros H i Hi.
    - apply (walker_ok m t); [split; [by eexists|done]|done| |apply H; lia]. cbn [w_edge].
      assert (i mod 4 < 4) as Hm by by apply Nat.mod_upper_bound. eapply opp_range; [done..|]. left. apply H. lia.
    - apply (walker_ok m t); [split; [by eexists|cbn; lia]|done| |apply H; lia]. cbn [w_edge].
      assert (i mod 4 < 4) as Hm by by apply Nat.mod_upper_bound. eapply opp_range; [done..|]. right. apply H. lia.
  Qed.

  Lemma tri_ok m id i : i < 4 → is_Some (tet_get m id) → ai_tri m (Walker id i) = true ↔
    ∃ w', to_adj m (Walker id i) = Some w' ∧ is_Some (w_locked m w') ∧ w_locked m w' = w_locked m (Walker id i).
  Proof.
    intros Hi [t Ht]. unfold ai_tri, to_adj. cbn [w_edge]. rewrite (Nat.div_small i 4) by done. destruct (to_adj_ae m _) as [x|]; [|naive_solver]. cbn [mbind option_bind].
    unfold w_locked at 1 5. cbn [w_tet w_edge]. rewrite Ht. cbn [mbind option_bind]. destruct (w_locked m x) as [l|] eqn:E.
    - rewrite eqb_true_iff. split; [intros ->; exists x; split; [done|]; rewrite E; eauto|]. intros (w' & [= <-] & _ & E'). rewrite E in E'. congruence.
    - split; [done|]. intros (w' & [= <-] & [? E'] & _). congruence.
  Qed.

  Lemma lock_mod m id i j : i mod 4 = j mod 4 → w_locked m (Walker id i) = w_locked m (Walker id j).
  Proof. intros E. unfold w_locked. cbn [w_tet w_edge]. by rewrite E. Qed.
  Lemma lock_rot m k x : w_edge x < 12 → w_locked m (rot k x) = w_locked m x.
  Proof. intros Hx. unfold w_locked. by rewrite rot_tet, rot_mod. Qed.

  Lemma integrity_iff ori m : bounded (m_verts m) → bounded (m_edges m) → bounded (m_tets m) → is_Some (im_len (m_edges m)) →
    assert_integrity ori m = true ↔ intact ori m.
  Proof.
    intros Hbv Hbe Hbt Hlen. unfold assert_integrity. rewrite !andb_true_iff, !forallb_iter by done. split.
    - intros [[[[[H1 H2] H3] H4] H5] H6].
      assert (∀ e ue, im_get (m_edges m) e = Some ue → ((ue_vs ue).1 < (ue_vs ue).2)%N) as Hs by (intros e ue E; by eapply edge_okk, H2).
      rewrite no_dup_ok in H3 by done. rewrite used_ok in H4 by done.
      assert (∀ w, valid m w → walker_intact m w) as HW.
      { intros [id i] [[t Ht] Hi]. specialize (H6 id t Ht). unfold ai_tet in H6. rewrite !andb_true_iff in H6. destruct H6 as [_ H6]. cbn [fst snd] in H6.
        rewrite (walkers_ok m id t Ht) in H6. by apply H6. }
      assert (∀ w w', valid m w → to_adj m w = Some w' → valid m w') as Hval.
      { intros w w' Hw E. destruct (HW w Hw) as (a & b & c & d & w1 & x & w2 & e & ue & A1 & A2 & A3 & A4 & _). rewrite E in A2. injection A2 as <-.
        split; [by eapply verts_tet|]. apply (to_adj_range m). eauto. }
      split.
      + intros v vt E. by apply vert_ok, H1.
      + done.
      + done.
      + done.
      + intros id t Ht. specialize (H6 id t Ht). unfold ai_tet in H6. rewrite !andb_true_iff in H6. destruct H6 as [[[H6 _] _] _]. apply Nat.eqb_eq in H6. cbn [snd] in H6.
        apply remove_dups_len. done.
      + intros f id t -> Ht. specialize (H6 id t Ht). unfold ai_tet in H6. rewrite !andb_true_iff in H6. tauto.
      + intros w a b c d Hw Ew. destruct (HW w Hw) as (a' & b' & c' & d' & w1 & x & w2 & e & ue & A1 & A2 & A3 & A4 & A5 & _). rewrite Ew in A1. injection A1 as <- <- <- <-.
        exists w1, x, w2. assert (valid m w1) as Hw1 by by eapply Hval. do 4 (split; [done|]). split; [exact (Hval _ _ Hw1 A4)|done].
      + intros [id i] w' Hw E. pose proof Hw as [[t Ht] Hi]. cbn [w_tet w_edge] in *. pose proof (H6 id t Ht) as H6'. unfold ai_tet in H6'. rewrite !andb_true_iff in H6'. cbn [fst] in H6'.
        destruct H6' as [[_ H6'] _]. rewrite forallb_seq in H6'. assert (i mod 4 < 4) as Hm by by apply Nat.mod_upper_bound.
        specialize (H6' (i mod 4) ltac:(lia)). apply (tri_ok m id (i mod 4) Hm) in H6' as (w1 & E1 & _ & E2); [|by eexists].
        assert (valid m (Walker id (i mod 4))) as Hw1 by (split; [by eexists|cbn; lia]).
        rewrite (to_adj_rot m (Walker id (i mod 4)) t Hw1 Ht) in E1. cbn [w_edge] in E1. rewrite (Nat.div_small (i mod 4) 4), Nat.mod_mod in E1 by done. cbn [rot] in E1.
        rewrite (to_adj_rot m (Walker id i) t Hw Ht) in E. cbn [w_edge] in E. apply (inj Some) in E as <-. apply (inj Some) in E1. rewrite E1. rewrite lock_rot.
        * rewrite E2. apply lock_mod. by apply Nat.mod_mod.
        * assert (valid m w1) as [_ ?]; [|done]. apply (Hval _ _ Hw1). rewrite (to_adj_rot m _ t Hw1 Ht). cbn [w_edge]. by rewrite (Nat.div_small (i mod 4) 4), Nat.mod_mod, E1 by done.
      + intros w a b Hw Ep. destruct (HW w Hw) as (a' & b' & c' & d' & w1 & x & w2 & e & ue & A1 & _ & _ & _ & _ & A6 & A7 & A8 & _).
        rewrite (pair_of_verts _ _ _ _ _ _ A1) in Ep. injection Ep as -> ->. exists e, ue. split; [done|]. split; [done|]. rewrite A8. symmetry. apply sorted_2_idem. by eapply Hs.
      + intros Htr k w E. unfold ai_trimap in H5. rewrite Htr in H5. cbn [negb orb] in H5. rewrite forallb_forall in H5.
        apply elem_of_map_to_list, elem_of_list_In, H5 in E. cbn [fst snd] in E. destruct (w_tri m w) as [t|]; [|done]. apply bool_decide_eq_true in E. eauto.
      + intros Htr w t Hw Hlt Et. destruct (HW w Hw) as (a' & b' & c' & d' & w1 & x & w2 & e & ue & A1 & _ & _ & _ & _ & _ & _ & _ & A9).
        rewrite (tri_of_verts _ _ _ _ _ _ A1) in Et. injection Et as <-. by apply A9.
    - intros [I1 I2 I3 I4 I5 I6 I7 I8 I9 I10 I11]. split; [split; [split; [split; [split|]|]|]|].
      + intros v vt E. by apply vert_ok, I1.
      + intros e ue E. by eapply edge_okk, I2.
      + by apply no_dup_ok.
      + by apply used_ok.
      + unfold ai_trimap. destruct (m_track m) eqn:Htr; [|done]. cbn [negb orb]. apply forallb_forall. intros [k w] E%elem_of_list_In%elem_of_map_to_list. cbn [fst snd].
        destruct (I10 eq_refl k w E) as (t & -> & Ek). by apply bool_decide_eq_true.
      + intros id t Ht. unfold ai_tet. rewrite !andb_true_iff. cbn [fst snd]. split; [split; [split|]|].
        * apply Nat.eqb_eq. symmetry. apply (remove_dups_len (list4 (t_vs t))). by eapply I5.
        * destruct ori as [f|]; [by eapply I6|done].
        * rewrite forallb_seq. intros i Hi. apply tri_ok; [lia|by eexists|]. assert (valid m (Walker id i)) as Hw by (split; [by eexists|cbn; lia]).
          destruct (w_verts m (Walker id i)) as [[a b c d]|] eqn:Ev; [|by rewrite (verts_get m (Walker id i) t Ht) in Ev].
          destruct (I7 _ _ _ _ _ Hw Ev) as (w' & x & w'' & A1 & A2 & _). exists w'. split; [done|]. split; [|by apply I8]. destruct A2 as [[t' Ht'] _]. unfold w_locked. rewrite Ht'. cbn. eauto.
        * apply (walkers_ok m id t Ht). intros i Hi. assert (valid m (Walker id i)) as Hw by (split; [by eexists|done]).
          destruct (w_verts m (Walker id i)) as [[a b c d]|] eqn:Ev; [|by rewrite (verts_get m (Walker id i) t Ht) in Ev].
          destruct (I7 _ _ _ _ _ Hw Ev) as (w' & x & w'' & A1 & A2 & A3 & A4 & A5 & A6). destruct (I9 _ a b Hw (pair_of_verts _ _ _ _ _ _ Ev)) as (e & ue & B1 & B2 & B3).
          exists a, b, c, d, w', x, w'', e, ue. do 7 (split; [done|]). split.
          { rewrite <- B3. symmetry. apply sorted_2_idem. by eapply I2. }
          intros Htr Hlt. apply (I11 Htr _ _ Hw Hlt). by eapply tri_of_verts.
  Qed.
  Lemma wf_bounded {A} (im : idmap A) : im_wf im → bounded im.
  Proof. intros Hwf k x E. apply (wf_bound _ Hwf). by exists x. Qed.
End int.
