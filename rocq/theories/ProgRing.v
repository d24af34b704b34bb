(** The triangles around an edge. *)
From stdpp Require Import base numbers list gmap option relations.
From Coq Require Import NArith ZArith Lia.
From Verif Require Import IdMapModel IdMapSpec IdMapProofs WalkerModel WalkerSpec WalkerProofs WalkerMore MeshModel MeshSpec MeshViews FlipSpec HistSpec FlipBase
  Flip23Ok Flip32Ok Flip44Ok History Reach UtilModel UtilSpec UtilProofs IterModel IterDfs IterProofs IterLookup MeshOps FlipMore QualModel ProgModel ProgSpec SortProofs ProgBase ProgFlip ProgStep.
Local Open Scope nat_scope.

Section ring.
  Context {V T : Type}.
  Implicit Types (m : mesh V T) (w : walker).

  Lemma ring_yields m w l : round_trip (ring_next m) w l → yields (edge_ring_next m) (edge_ring m w) l.
  Proof.
    intros Hr. pose proof (circular_yields (λ _, Some ()) (λ _, ()) (ring_next m) w l Hr (λ _ _, eq_refl)) as Hy.
    pose proof (yields_map (ci_next (λ _, Some ()) (ring_next m)) (edge_ring_next m) (λ p, Some p.1)) as Hm.
    assert (l = fst <$> ((λ x : walker, (x, ())) <$> l)) as -> by (rewrite <- list_fmap_compose; symmetry; apply list_fmap_id).
    apply (Hm) with (g := fst); [|exact Hy|done].
    intros s. unfold edge_ring_next. by destruct (ci_next _ _ s) as [[[[??]|]?]|].
  Qed.

  Lemma ring_next_other m w r p q x y : mesh_ok m → valid m w → w_verts m w = Some (A4 p q x y) → ring_next m w = Some r →
    valid m r ∧ w_tet r ≠ w_tet w ∧ ∃ z, w_verts m r = Some (A4 p q y z).
  Proof.
    intros Hok Hw E R. destruct (ring_info m w r p q x y Hok Hw E R) as (Hv & Hz). split; [done|]. split; [|done].
    unfold ring_next in R. destruct (adj_spec m (to_twin_edge w) q p y x Hok) as (r' & x' & E' & _ & _ & _ & Hne); [by apply valid_twin|by apply wverts_twin|].
    rewrite R in E'. by injection E' as <-.
  Qed.

  Lemma ring_walk m w p q : mesh_ok m → thick m → valid m w → w_pair m w = Some (p, q) →
    ∃ l, ring_list m w = Some l ∧ round_trip (ring_next m) w l ∧ (∀ x, x ∈ l ↔ valid m x ∧ w_pair m x = Some (p, q)) ∧
      3 ≤ length l ∧ NoDup l ∧
      ∃ vs, mapM (w_third m) l = Some vs ∧ NoDup vs ∧ length vs = length l ∧ ∀ v, v ∈ vs ↔ has_tri m p q v.
  Proof.
    intros Hok Hth Hw Hp. destruct (edge_ring_round m w Hok Hw) as (l & Hr & _ & Hv). exists l.
    pose proof (ring_set m w l (p, q) Hok Hw Hp Hr Hv) as Hset. pose proof Hr as (H0 & Hn & Hs).
    assert (NoDup l) as Hnd by (by eapply round_trip_nodup).
    assert (NoDup (w_tet <$> l)) as Hndt.
    { apply NoDup_fmap_2_strong; [|done]. intros x y Hx Hy Ht.
      apply Hset in Hx as [Hx Px], Hy as [Hy Py].
      destruct (wverts_of_pair m x p q Hx Px) as (c & d & Fx), (wverts_of_pair m y p q Hy Py) as (c' & d' & Fy).
      by eapply pair_same. }
    split.
    { unfold ring_list. destruct (ring_yields m w l Hr (length (im_keys (m_tets m)) + 1)) as (s' & E). rewrite E. cbn. f_equal.
      apply take_ge. assert (length (w_tet <$> l) ≤ length (im_keys (m_tets m))) as HL; [|rewrite fmap_length in HL; lia].
      apply submseteq_length, NoDup_submseteq; [done|]. intros i (x & -> & Hx)%elem_of_list_fmap. apply Hset in Hx as [[[t Et] _] _].
      apply (elem_of_im_keys _ _ (ok_ids_tets m Hok)). unfold tet_get, im_get in Et. eauto. }
    split; [done|]. split; [done|].
    destruct (wverts_of_pair m w p q Hw Hp) as (x & y & Ew).
    split.
    { destruct l as [|w' [|a [|]]]; cbn; [done|..|lia]; exfalso; injection H0 as ->.
      - pose proof (Hn 0 w eq_refl) as R. cbn in R. destruct (ring_next_other m w w p q x y Hok Hw Ew R) as (_ & K & _). done.
      - pose proof (Hn 0 w eq_refl) as R. cbn in R. pose proof (Hn 1 a eq_refl) as R'. cbn in R'.
        destruct (ring_next_other m w a p q x y Hok Hw Ew R) as (Ha & K & z & Ea).
        destruct (ring_info m a w p q y z Hok Ha Ea R') as (_ & z' & Ew'). rewrite Ew in Ew'. injection Ew' as <- _.
        apply K. destruct (wverts_in m w _ Hw Ew) as (v1 & V1 & W1). destruct (wverts_in m a _ Ha Ea) as (v2 & V2 & W2).
        rewrite thick_vs in Hth. apply (Hth _ _ v2 v1 V2 V1). intros v. rewrite <- W1, <- W2. unfold list4. cbn [q0 q1 q2 q3].
        rewrite ?elem_of_cons. clear. tauto. }
    split; [done|].
    assert (∀ u, u ∈ l → ∃ c d, w_verts m u = Some (A4 p q c d) ∧ w_third m u = Some c) as Hthird.
    { intros u [Hu Pu]%Hset. destruct (wverts_of_pair m u p q Hu Pu) as (c & d & Eu). exists c, d. split; [done|].
      apply (walker_accessors m u _ _ _ _ Eu). }
    assert (∃ vs, mapM (w_third m) l = Some vs) as (vs & Evs).
    { apply mapM_is_Some. apply list.Forall_forall. intros u Hu. destruct (Hthird u Hu) as (c & d & _ & E). eauto. }
    exists vs. split; [done|]. pose proof (mapM_length _ _ _ Evs) as Hlen. apply mapM_Some in Evs.
    assert (∀ i v, vs !! i = Some v ↔ ∃ u, l !! i = Some u ∧ w_third m u = Some v) as Hvs.
    { intros i v. split.
      - intros Hi. destruct (Forall2_lookup_r _ _ _ _ _ Evs Hi) as (u & ? & ?). eauto.
      - intros (u & Hi & Hv'). destruct (Forall2_lookup_l _ _ _ _ _ Evs Hi) as (v' & ? & ?). congruence. }
    split.
    { apply NoDup_alt. intros i j v Hi Hj. apply Hvs in Hi as (u & Hi & Eu), Hj as (u' & Hj & Eu').
      assert (u ∈ l) as Ku by (apply elem_of_list_lookup; eauto). assert (u' ∈ l) as Ku' by (apply elem_of_list_lookup; eauto).
      destruct (Hthird u Ku) as (c & d & F & G), (Hthird u' Ku') as (c' & d' & F' & G').
      assert (c' = v) as -> by congruence. assert (c = v) as -> by congruence.
      apply Hset in Ku as [Ku _], Ku' as [Ku' _].
      assert (u = u') as <- by (apply (ok_tri_unique m Hok u u' (p, q, v)); [done|done|by eapply wverts_tri..]).
      by apply (proj1 (NoDup_alt l) Hnd i j u). }
    split; [by rewrite Hlen|]. intros v. rewrite elem_of_list_lookup. split.
    - intros (i & Hi). apply Hvs in Hi as (u & Hi & Eu). assert (u ∈ l) as Ku by (apply elem_of_list_lookup; eauto).
      destruct (Hthird u Ku) as (c & d & F & G). assert (c = v) as -> by congruence. apply Hset in Ku as [Ku _].
      exists u. split; [done|]. by eapply wverts_tri.
    - intros (u & Hu & Eu). destruct (wtri_verts m u _ _ _ Hu Eu) as (d & F).
      assert (u ∈ l) as Ku by (apply Hset; split; [done|by eapply wverts_pair]).
      apply elem_of_list_lookup in Ku as (i & Hi). exists i. apply Hvs. exists u. split; [done|].
      apply (walker_accessors m u _ _ _ _ F).
  Qed.

  (** The walker found for a triangle at the edge. *)
  Lemma tri_walker m p q v : mesh_ok m → m_track m = true → has_tri m p q v →
    ∃ w d, walker_from_tri m (p, q, v) = Some (Some w) ∧ tri_map_walker m (p, q) v = Some w ∧ valid m w ∧ w_verts m w = Some (A4 p q v d).
  Proof.
    intros Hok Htr Hv. destruct (tri_lookup m (p, q, v) Hok Htr) as [(_ & w & E & Hw & Et)|(Hn & _)]; [|done].
    destruct (wtri_verts m w _ _ _ Hw Et) as (d & F). exists w, d. split; [unfold walker_from_tri; by rewrite Htr|].
    split; [|done]. unfold walker_from_tri_tracked in E. unfold tri_map_walker. cbn [fst snd] in *.
    destruct (m_trimap m !! tri_key (p, q, v)) as [u|]; [|done]. cbn [mbind option_bind] in *.
    destruct (to_edge_assuming_tri m u p); cbn in *; congruence.
  Qed.
  Lemma no_tri_walker m p q v : mesh_ok m → m_track m = true → ¬ has_tri m p q v → walker_from_tri m (p, q, v) = Some None.
  Proof.
    intros Hok Htr Hv. destruct (tri_lookup m (p, q, v) Hok Htr) as [(? & _)|(_ & E)]; [done|]. unfold walker_from_tri; by rewrite Htr.
  Qed.

  (** At least three triangles. *)
  Lemma ring_three m p q : fit m → joined m p q → ∃ vs, NoDup vs ∧ 3 ≤ length vs ∧ ∀ v, v ∈ vs ↔ has_tri m p q v.
  Proof.
    intros (Hok & _ & Hth) (w & Hw & Hp). destruct (ring_walk m w p q Hok Hth Hw Hp) as (l & _ & _ & _ & H3 & _ & vs & _ & Hnd & Hl & Hvs).
    exists vs. split; [done|]. split; [by rewrite Hl|done].
  Qed.
  (** A list of at most three that covers the triangles at the edge. *)
  Lemma cover_three m p q l : fit m → joined m p q → (∀ v, has_tri m p q v → v ∈ l) → length l ≤ 3 →
    length l = 3 ∧ ∀ v, v ∈ l → has_tri m p q v.
  Proof.
    intros Hf Hj Hc Hl. destruct (ring_three m p q Hf Hj) as (vs & Hnd & H3 & Hvs).
    assert (vs ⊆+ l) as Hsub by (apply NoDup_submseteq; [done|]; intros v Hv; by apply Hc, Hvs).
    pose proof (submseteq_length _ _ Hsub). split; [lia|]. intros v Hv. apply Hvs.
    assert (vs ≡ₚ l) as Hperm by (apply submseteq_Permutation_length_le; [lia|done]). by rewrite Hperm.
  Qed.
  Lemma more_than_cover m p q l : fit m → joined m p q → NoDup l → (∀ v, has_tri m p q v ↔ v ∈ l) → 3 ≤ length l.
  Proof.
    intros Hf Hj Hnd Hc. destruct (ring_three m p q Hf Hj) as (vs & Hnd' & H3 & Hvs).
    assert (length vs ≤ length l); [|lia]. apply submseteq_length, NoDup_submseteq; [done|]. intros v Hv. by apply Hc, Hvs.
  Qed.

  (** The three or four walkers around an edge. *)
  Lemma ring_of_three m w p q x y : fit m → valid m w → w_verts m w = Some (A4 p q x y) →
    (∀ l, (∀ v, has_tri m p q v ↔ v ∈ l) → NoDup l → length l = 3 →
    ∃ r1 r2 z, ring_next m w = Some r1 ∧ ring_next m r1 = Some r2 ∧ ring_next m r2 = Some w ∧ valid m r1 ∧ valid m r2 ∧
      w_verts m r1 = Some (A4 p q y z) ∧ w_verts m r2 = Some (A4 p q z x) ∧ ∀ v, has_tri m p q v ↔ v ∈ [x; y; z]).
  Proof.
    intros (Hok & _ & Hth) Hw Ew l Hl Hnd H3.
    destruct (ring_walk m w p q Hok Hth Hw (wverts_pair _ _ _ _ _ _ Ew)) as (ring & _ & Hr & _ & _ & _ & vs & Evs & Hndv & Hlv & Hvs).
    assert (length vs = 3) as H3'.
    { rewrite <- H3. apply Permutation_length, NoDup_Permutation; [done|done|]. intros v. by rewrite Hvs, Hl. }
    rewrite H3' in Hlv. destruct Hr as (H0 & Hn & _).
    destruct ring as [|w' [|r1 [|r2 [|]]]]; try done. injection H0 as ->.
    pose proof (Hn 0 w eq_refl) as R1. pose proof (Hn 1 r1 eq_refl) as R2. pose proof (Hn 2 r2 eq_refl) as R3. cbn in R1, R2, R3.
    destruct (ring_info m w r1 _ _ _ _ Hok Hw Ew R1) as (V1 & (z & E1)).
    destruct (ring_info m r1 r2 _ _ _ _ Hok V1 E1 R2) as (V2 & (x' & E2)).
    destruct (ring_info m r2 w _ _ _ _ Hok V2 E2 R3) as (_ & (y' & E3)).
    rewrite Ew in E3. injection E3 as <- <-.
    exists r1, r2, z. do 7 (split; [done|]). intros v. rewrite <- Hvs.
    cbn in Evs. rewrite (proj1 (proj2 (proj2 (walker_accessors m w _ _ _ _ Ew)))) in Evs.
    rewrite (proj1 (proj2 (proj2 (walker_accessors m r1 _ _ _ _ E1)))) in Evs.
    rewrite (proj1 (proj2 (proj2 (walker_accessors m r2 _ _ _ _ E2)))) in Evs. cbn in Evs. by injection Evs as <-.
  Qed.
End ring.
