(** Replacing tets: running the cap and shell transforms. *)
From stdpp Require Import base numbers list gmap option relations.
From Coq Require Import NArith ZArith ZifyN ZifyNat ZifyBool Lia.
From Verif Require Import IdMapModel IdMapSpec IdMapProofs WalkerModel WalkerSpec WalkerProofs SortProofs
  MeshModel WalkerMore MeshOps MeshSpec FlipSpec MeshViews Surgery MeshLink MeshRun FlipBase FlipRun IterModel IntOk InsModel InsStep InsCone TransModel TransSpec TransOk TakeOk PutOk ReplOk ReplFin IterProofs.
Local Open Scope nat_scope.

Lemma pos13 (q : arr4 N) (e e' : nat) : NoDup (list4 q) → e < 12 → e' < 12 → q1 (verts_at q e) = q1 (verts_at q e') → q3 (verts_at q e) = q3 (verts_at q e') → e = e'.
Proof.
  intros Hnd He He'. destruct q as [a b c d]. apply NoDup4 in Hnd as (?&?&?&?&?&?). cbn in *. case12 e He; case12 e' He'; cbn; intros; first [reflexivity|exfalso; congruence].
Qed.
Lemma tri_in (y' vt x' vb x y : N) (j : nat) : j < 12 → NoDup (list4 (A4 y' vt x' vb)) → x ≠ vb → y ≠ vb → tri3 (verts_at (A4 y' vt x' vb) j) = (vt, y, x) → (x', y') = (y, x).
Proof.
  intros Hj Hnd Hx Hy. apply NoDup4 in Hnd as (?&?&?&?&?&?). cbn in *. unfold tri3. case12 j Hj; cbn; intros HH; injection HH; intros; first [exfalso; congruence|congruence].
Qed.
Lemma mfoldl_ext {S A} (f g : S → A → option S) l : (∀ s a, a ∈ l → f s a = g s a) → ∀ s, mfoldl f l s = mfoldl g l s.
Proof.
  induction l as [|a l IH]; intros H s; [done|]. cbn [mfoldl]. rewrite (H s a) by (by left). destruct (g s a); [|done]. cbn [mbind option_bind]. apply IH. intros s' a' Ha. apply H. by right.
Qed.
Lemma tris_both (q : arr4 N) t : NoDup (list4 q) → t ∈ tris_of q → both q t.1.1 t.1.2.
Proof. intros Hnd Ht. rewrite tris_of_12 in Ht. apply elem_of_list_fmap in Ht as (j & -> & Hj). apply elem_of_seq in Hj. unfold tri3. cbn. apply both_at; [lia|done]. Qed.

Lemma path_rev (l : list N) x y : NoDup l → (x, y) ∈ path_sides l → (y, x) ∉ path_sides l.
Proof.
  intros Hnd (i & Hi)%elem_of_list_lookup (j & Hj)%elem_of_list_lookup. unfold path_sides in *.
  apply lookup_zip_with_Some in Hi as (a & b & [= <- <-] & A & B). apply lookup_zip_with_Some in Hj as (a & b & [= <- <-] & A' & B'). rewrite lookup_drop in B, B'.
  pose proof (NoDup_lookup _ _ _ _ Hnd B A'). pose proof (NoDup_lookup _ _ _ _ Hnd B' A). lia.
Qed.
Lemma path_nodup (l : list N) : NoDup l → NoDup (path_sides l).
Proof.
  intros Hnd. apply (NoDup_fmap_1 snd). unfold path_sides. rewrite snd_zip by (rewrite drop_length; lia). destruct l; [done|]. by apply stdpp.list.NoDup_cons in Hnd as [_ Hnd].
Qed.
Lemma ring_lookup (l : list N) i y : i < length l → (drop 1 l ++ take 1 l) !! i = Some y → (S i < length l ∧ l !! S i = Some y) ∨ (S i = length l ∧ l !! 0 = Some y).
Proof.
  intros Hi H. destruct (decide (S i < length l)) as [Hs|Hs].
  - left. split; [done|]. rewrite lookup_app_l in H by (rewrite drop_length; lia). by rewrite lookup_drop in H.
  - right. split; [lia|]. rewrite lookup_app_r in H by (rewrite drop_length; lia). rewrite drop_length in H. replace (i - (length l - 1)) with 0 in H by lia. by destruct l.
Qed.
Lemma ring_rev (l : list N) x y : NoDup l → 3 ≤ length l → (x, y) ∈ ring_sides l → (y, x) ∉ ring_sides l.
Proof.
  intros Hnd Hn (i & Hi)%elem_of_list_lookup (j & Hj)%elem_of_list_lookup. unfold ring_sides in *.
  apply lookup_zip_with_Some in Hi as (a & b & [= <- <-] & A & B). apply lookup_zip_with_Some in Hj as (a & b & [= <- <-] & A' & B').
  pose proof (lookup_lt_Some _ _ _ A). pose proof (lookup_lt_Some _ _ _ A').
  apply ring_lookup in B; [|done]. apply ring_lookup in B'; [|done].
  destruct B as [[? B]|[? B]]; pose proof (NoDup_lookup _ _ _ _ Hnd B A'); destruct B' as [[? B']|[? B']]; pose proof (NoDup_lookup _ _ _ _ Hnd B' A); lia.
Qed.
Lemma ring_nodup (l : list N) : NoDup l → NoDup (ring_sides l).
Proof.
  intros Hnd. apply (NoDup_fmap_1 fst). unfold ring_sides. rewrite fst_zip; [done|]. rewrite app_length, drop_length, take_length. lia.
Qed.
Lemma ring_split (h : N) (t : list N) : ∃ l0 z, h :: t = l0 ++ [z] ∧ ring_sides (h :: t) = zip l0 t ++ [(z, h)] ∧ length l0 = length t.
Proof.
  destruct (exists_last (l := h :: t)) as (l0 & z & E); [done|]. exists l0, z. assert (length l0 = length t) as Hl. { apply (f_equal length) in E. rewrite app_length in E. cbn in E. lia. }
  split; [done|]. split; [|done]. unfold ring_sides. cbn [drop take]. rewrite E. by rewrite zip_with_app.
Qed.

Section run.
  Context {V T : Type}.
  Context (dflt : T).
  Implicit Types (m : mesh V T) (F G : N → tet T) (w u d r : walker) (L : gset N) (id e : N)
    (Ed : N → option uedge) (Vt : N → option (vertex V)) (em : gmap (N * N) N) (tm : gmap (N * N * N) walker).

  Definition side_ok (vt vb : N) L F (e : N * N) (p : walker * walker) : Prop :=
    vd L p.1 ∧ vd L p.2 ∧ twist (vv F p.1) (vv F p.2) ∧ vv F p.1 = A4 e.2 vt e.1 vb.

  Lemma sides_list m L F vt vb sides : mesh_ok m → mv m L F → (∀ q, q ∈ side_tets vt vb sides → ∃ w, valid m w ∧ w_verts m w = Some q) →
    ∃ l, Forall2 (side_ok vt vb L F) sides l.
  Proof.
    intros Hok Hmv. induction sides as [|s sides IH]; intros H; [by exists []|]. destruct IH as (l & Hl); [intros q Hq; apply H; by right|].
    destruct (H (A4 s.2 vt s.1 vb)) as (w & Hw & E); [by left|]. destruct (ok_adj _ Hok w _ _ _ _ Hw E) as (w' & x & A & B & C & D).
    apply (mv_valid _ _ _ _ Hmv) in Hw, B. rewrite (mv_verts _ _ _ _ Hmv) in E by apply Hw. rewrite (mv_verts _ _ _ _ Hmv) in C by apply B. apply (inj Some) in E, C.
    exists ((w, w') :: l). constructor; [|done]. split; [done|]. split; [done|]. cbn [fst snd]. split; [|done]. unfold twist. by rewrite E, C.
  Qed.
  Lemma sides_tets L F Ed tm vt vb sides l : opn L F Ed tm → Forall2 (side_ok vt vb L F) sides l → NoDup sides → (∀ x y, (x, y) ∈ sides → (y, x) ∉ sides) →
    NoDup ((λ p, w_tet p.1) <$> l) ∧ ∀ p q, p ∈ l → q ∈ l → w_tet p.2 ≠ w_tet q.1.
  Proof.
    intros Hop Hl Hnd Hrev. pose proof Hop as [O1 O2 O3 _ _ _].
    assert (∀ p q s s', side_ok vt vb L F s p → side_ok vt vb L F s' q → w_tet p.1 = w_tet q.1 → s = s') as Hinj.
    { intros [[x e] p'] [[x' e'] q'] [a b] [a' b'] (A1 & _ & _ & A2) (B1 & _ & _ & B2) E. cbn [fst snd w_tet] in *. subst x'. unfold vv in A2, B2. cbn [w_tet w_edge] in A2, B2.
      assert (e = e') as <-. { apply (pos13 (t_vs (F x))); [apply O1, A1|apply A1|apply B1|by rewrite A2, B2..]. } rewrite A2 in B2. congruence. }
    split.
    - clear Hrev. induction Hl as [|s p sides l Hp Hl IH]; [constructor|]. apply NoDup_cons in Hnd as [Hn Hnd]. cbn. apply stdpp.list.NoDup_cons. split; [|by apply IH].
      intros (q & E & Hq)%elem_of_list_fmap. apply elem_of_list_lookup in Hq as (i & Hi). destruct (Forall2_lookup_r _ _ _ _ _ Hl Hi) as (s' & Hs' & Hsq). assert (s = s') as <- by by eapply Hinj.
      apply Hn. by apply elem_of_list_lookup_2 in Hs'.
    - intros p q Hp Hq E. apply elem_of_list_lookup in Hp as (i & Hi). apply elem_of_list_lookup in Hq as (k & Hk).
      destruct (Forall2_lookup_r _ _ _ _ _ Hl Hi) as ([x y] & Hs & A1 & A2 & A3 & A4'). destruct (Forall2_lookup_r _ _ _ _ _ Hl Hk) as ([x' y'] & Hs' & B1 & B2 & B3 & B4). cbn [fst snd] in *.
      apply twist_swap in A3. rewrite A4' in A3. cbn in A3. pose proof (vv_nodup F p.1 (proj2 A1) (O1 _ (proj1 A1))) as Hn. rewrite A4' in Hn. pose proof (vv_nodup F q.1 (proj2 B1) (O1 _ (proj1 B1))) as Hn'. rewrite B4 in Hn'.
      destruct (comp_to (t_vs (F (w_tet q.1))) (w_edge q.1) (w_edge p.2) (proj2 B1) (proj2 A2)) as (j & Hj & Ej).
      assert (vv F p.2 = verts_at (vv F q.1) j) as Ev by (unfold vv at 1; rewrite E; symmetry; exact Ej). rewrite Ev, B4 in A3.
      apply NoDup4 in Hn as (?&?&?&?&?&?). cbn in *. apply tri_in in A3; [|done..]. injection A3 as -> ->.
      apply (Hrev x y); [by apply elem_of_list_lookup_2 in Hs|by apply elem_of_list_lookup_2 in Hs'].
  Qed.

  Lemma out_tris0 L F Ed tm l : opn L F Ed tm → (∀ p, p ∈ l → vd L p.1) →
    ∀ u, vd L u → tri3 (vv F u) ∈ ((λ p : walker * walker, vv F p.1) <$> l) ≫= tris_of ↔ ∃ p, p ∈ l ∧ w_tet p.1 = w_tet u.
  Proof.
    intros Hop Hl u Hu. pose proof (op_uniq _ _ _ _ Hop) as O3. rewrite elem_of_list_bind. split.
    - intros (q & Ht & (p & -> & Hp)%elem_of_list_fmap). rewrite tris_of_12 in Ht. apply elem_of_list_fmap in Ht as (j & Ht & Hj). apply elem_of_seq in Hj. pose proof (Hl p Hp) as Hp1.
      destruct (comp_at (t_vs (F (w_tet p.1))) (w_edge p.1) j (proj2 Hp1)) as (k & Hk & E); [lia|].
      assert (u = Walker (w_tet p.1) k) as ->. { apply O3; [done|by split; [apply Hp1|]|]. rewrite Ht. f_equal. exact E. }
      by exists p.
    - intros (p & Hp & Et). exists (vv F p.1). split; [|apply elem_of_list_fmap; by exists p]. rewrite tris_of_12.
      destruct (comp_to (t_vs (F (w_tet p.1))) (w_edge p.1) (w_edge u) (proj2 (Hl p Hp)) (proj2 Hu)) as (j & Hj & E).
      assert (vv F u = verts_at (vv F p.1) j) as -> by (unfold vv at 1; rewrite <- Et; symmetry; exact E). by apply elem_tris12.
  Qed.
  Lemma new_free m L F sp l L1 F1 Ed1 em1 out new gone : mv m L F → opn L F (im_get (m_edges m)) (m_trimap m) →
    tooks sp l L F (im_get (m_edges m)) L1 F1 Ed1 em1 → (∀ p, p ∈ l → vd L p.1) → out = (λ p, vv F p.1) <$> l → replaceable m out new gone →
    ∀ w, vd L1 w → tri3 (vv F1 w) ∉ new ≫= tris_of.
  Proof.
    intros Hmv Hop [T1 T2 _ _ _ _ _] Hl -> [R1 R2 R3 R4 R5 R6 R7 R8] w [Hw He] H. rewrite (vv_sbf F F1) in H by done. apply T1 in Hw as [Hw Hn]. assert (vd L w) as Hv by done.
    apply (R4 w) in H; [|by apply (mv_valid _ _ _ _ Hmv)|by apply (mv_tri _ _ _ _ Hmv)]. apply (out_tris0 _ _ _ _ _ Hop Hl w Hv) in H as (p & Hp & E). by apply (Hn p).
  Qed.
  Lemma new_fine m out new gone : mesh_ok m → replaceable m out new gone → ∀ q, q ∈ new → NoDup (list4 q) ∧ (∀ x, x ∈ list4 q → is_Some (im_get (m_verts m) x)) ∧
    (∀ x y, x ∈ list4 q → y ∈ list4 q → x ≠ y → ∃ q, q ∈ new ∧ both q x y).
  Proof.
    intros Hok [R1 R2 R3 R4 R5 R6 R7 R8] q Hq. destruct (R2 q Hq) as [A B]. split; [done|]. split; [|intros x y Hx Hy Hne; by exists q].
    intros x Hx. destruct (B x Hx) as (Hg & q' & Hq' & Hx'). destruct (R1 q' Hq') as (w & Hw & E).
    assert (∃ j, j < 12 ∧ q0 (verts_at q' j) = x) as (j & Hj & Ej).
    { destruct q' as [a b c d]. unfold list4 in Hx'. cbn [q0 q1 q2 q3] in Hx'. rewrite !elem_of_cons, elem_of_nil in Hx'. destruct Hx' as [->|[->|[->|[->|[]]]]]; [exists 3|exists 2|exists 1|exists 0]; (split; [lia|reflexivity]). }
    pose proof (view_exists m (tet_new q' (A4 w w w w) (A6 0%N 0%N 0%N 0%N 0%N 0%N) dflt)) as Hmv. set (L := dom _) in Hmv. set (F := λ i, _) in Hmv. clearbody L F.
    apply (mv_valid _ _ _ _ Hmv) in Hw. rewrite (mv_verts _ _ _ _ Hmv) in E by apply Hw. apply (inj Some) in E. destruct (comp_at (t_vs (F (w_tet w))) (w_edge w) j (proj2 Hw) Hj) as (k & Hk & Ek).
    assert (vd L (Walker (w_tet w) k)) as Hu by (split; [apply Hw|done]). destruct (ok_exist _ Hok (Walker (w_tet w) k) x) as [?|?]; [by apply (mv_valid _ _ _ _ Hmv)| |done..].
    rewrite (mv_first _ _ _ _ Hmv) by apply Hu. f_equal. rewrite <- Ej, <- E. symmetry. exact (f_equal q0 Ek).
  Qed.

  Lemma spine_ring m L F (l : list (walker * walker)) vt vb new gone p0 u : mesh_ok m → mv m L F → opn L F (im_get (m_edges m)) (m_trimap m) → (∀ p, p ∈ l → vd L p.1) →
    replaceable m ((λ p, vv F p.1) <$> l) new gone → (vt, vb) ∈ gone → (vb, vt) ∈ gone → p0 ∈ l → both (vv F p0.1) vt vb →
    vd L u → pair2 (vv F u) = (vt, vb) → ∃ p, p ∈ l ∧ w_tet p.1 = w_tet u.
  Proof.
    intros Hok Hmv Hop Hl [R1 R2 R3 R4 R5 R6 R7 R8] Hg Hg' Hp0 Hb Hu Eu. set (out := (λ p, vv F p.1) <$> l) in *. pose proof Hop as [O1 O2 O3 O4 O5 O6].
    assert (∀ q, q ∈ new → ¬ both q vt vb ∧ ¬ both q vb vt) as Hnb.
    { intros q Hq. assert (vv F p0.1 ∈ out) as Ho by (apply elem_of_list_fmap; by exists p0). destruct (R8 _ vt vb Ho Hb) as [[_ H]|[H _]]; [|done]. split; [by apply H|]. intros H'. by apply (H q Hq), both_sym. }
    assert (∀ c, (vt, vb, c) ∉ new ≫= tris_of ∧ (vb, vt, c) ∉ new ≫= tris_of) as Hnt.
    { intros c. split; intros (q & Ht & Hq)%elem_of_list_bind; destruct (Hnb q Hq) as [N1 N2]; apply tris_both in Ht; (done || by apply (R2 q Hq)). }
    assert (∀ c, (vb, vt, c) ∈ out ≫= tris_of ↔ (vt, vb, c) ∈ out ≫= tris_of) as Hsw.
    { intros c. destruct (Hnt c) as [N1 N2]. split; intros H; apply dec_stable; intros Hn; [apply N2|apply N1]; by apply R5. }
    destruct (both_walker _ _ _ Hb) as (j & Hj & Ej). destruct (comp_at (t_vs (F (w_tet p0.1))) (w_edge p0.1) j (proj2 (Hl _ Hp0)) Hj) as (k & Hk & Ek). set (w0 := Walker (w_tet p0.1) k).
    assert (vd L w0) as Hw0 by (split; [apply (Hl _ Hp0)|done]). assert (pair2 (vv F w0) = (vt, vb)) as Ew0 by (rewrite <- Ej; f_equal; symmetry; exact Ek).
    assert (∀ w, vd L w → pair2 (vv F w) = (vt, vb) → w_pair m w = Some (vt, vb)) as Hpr. { intros w Hw E. rewrite (mv_pair _ _ _ _ Hmv) by apply Hw. f_equal. exact E. }
    pose proof (ok_ring _ Hok w0 u (vt, vb) (proj2 (mv_valid _ _ _ _ Hmv) Hw0) (proj2 (mv_valid _ _ _ _ Hmv) Hu) (Hpr _ Hw0 Ew0) (Hpr _ Hu Eu)) as Hr.
    assert (∀ y, (∃ p, p ∈ l ∧ w_tet p.1 = w_tet y) ∧ vd L y ∧ pair2 (vv F y) = (vt, vb) → ∃ p, p ∈ l ∧ w_tet p.1 = w_tet y) as Hpj by tauto. apply Hpj. clear Hpj.
    apply (rtsc_inv (edge_step m) (λ y, (∃ p, p ∈ l ∧ w_tet p.1 = w_tet y) ∧ vd L y ∧ pair2 (vv F y) = (vt, vb)) w0 u); [|done|split; [by exists p0|done]].
    intros a b [Ha E]. unfold ring_next in E. apply (mv_valid _ _ _ _ Hmv) in Ha. assert (vd L (to_twin_edge a)) as Hta by (by apply vd_twin).
    destruct (ok_adj _ Hok (to_twin_edge a) (q0 (vv F (to_twin_edge a))) (q1 (vv F (to_twin_edge a))) (q2 (vv F (to_twin_edge a))) (q3 (vv F (to_twin_edge a)))) as (b' & x & A & B & C & D);
      [by apply (mv_valid _ _ _ _ Hmv)|rewrite (mv_verts _ _ _ _ Hmv) by apply Hta; by destruct (vv F (to_twin_edge a))|].
    rewrite E in A. injection A as <-. apply (mv_valid _ _ _ _ Hmv) in B. rewrite (mv_verts _ _ _ _ Hmv) in C by apply B. apply (inj Some) in C.
    assert (vv F (to_twin_edge a) = A4 (q1 (vv F a)) (q0 (vv F a)) (q3 (vv F a)) (q2 (vv F a))) as Et.
    { apply vv_twin, Ha. }
    rewrite Et in C. cbn [q0 q1 q2 q3] in C.
    assert (pair2 (vv F b) = pair2 (vv F a)) as Epab by by rewrite C.
    assert (pair2 (vv F a) = (vt, vb) → (∃ p, p ∈ l ∧ w_tet p.1 = w_tet a) ↔ (∃ p, p ∈ l ∧ w_tet p.1 = w_tet b)) as Hiff.
    { intros Ea. rewrite <- (out_tris0 _ _ _ _ _ Hop Hl b B). assert (w_tet a = w_tet (to_twin_edge a)) as -> by done. rewrite <- (out_tris0 _ _ _ _ _ Hop Hl _ Hta), Et, C. unfold tri3. cbn [q0 q1 q2].
      unfold pair2 in Ea. apply pair_equal_spec in Ea as [-> ->]. apply Hsw. }
    split; intros (X & Y & Z); [rewrite Epab, <- Hiff|rewrite <- Epab, Hiff]; try done. by rewrite <- Epab.
  Qed.

  Lemma knows_after m L F sp l L1 F1 Ed1 em1 out new gone : mesh_ok m → mv m L F → opn L F (im_get (m_edges m)) (m_trimap m) →
    tooks sp l L F (im_get (m_edges m)) L1 F1 Ed1 em1 → (∀ p, p ∈ l → vd L p.1) → out = (λ p, vv F p.1) <$> l → replaceable m out new gone →
    (∀ e ue a b, im_get (m_edges m) e = Some ue → ue_vs ue = sorted_2 (a, b) → a ≠ b → sp = Some e ↔ (a, b) ∈ gone ∨ (b, a) ∈ gone) →
    knows (λ x y, ∃ q, q ∈ new ∧ both q x y) Ed1 em1.
  Proof.
    intros Hok Hmv Hop [T1 T2 T3 T4 T5 T6 T7] Hl Eout [R1 R2 R3 R4 R5 R6 R7 R8] Hsp a b e (q & Hq & Hb) Hab. pose proof Hop as [O1 O2 O3 O4 O5 O6].
    assert (∀ p, p ∈ l → vv F p.1 ∈ out) as Hpo by (intros p Hp; rewrite Eout; apply elem_of_list_fmap; by exists p).
    split.
    - intros He. destruct (decide (Exists (λ p : walker * walker, Exists (λ j, ekey F (Walker (w_tet p.1) j) = sorted_2 (a, b)) (seq 0 12)) l)) as [Hex|Hex].
      + apply Exists_exists in Hex as (p & Hp & (j & Hj & Ek)%Exists_exists). apply elem_of_seq in Hj. pose proof (Hl p Hp) as Hp1. set (u := Walker (w_tet p.1) j) in *.
        assert (vd L u) as Hu by (split; [apply Hp1|cbn; lia]). pose proof (T6 p u Hp eq_refl (proj2 Hu)) as H. rewrite Ek, He in H. injection H as ->. destruct (O5 u Hu) as (ue & A & B). unfold ekey in Ek. rewrite Ek in B.
        assert (both (vv F p.1) a b) as Hbo.
        { destruct (comp_to (t_vs (F (w_tet p.1))) (w_edge p.1) j (proj2 Hp1)) as (k & Hk & E); [lia|]. assert (vv F u = verts_at (vv F p.1) k) as Ev by (unfold vv at 1; symmetry; exact E).
          assert (both (vv F p.1) (q0 (vv F u)) (q1 (vv F u))) as Hbo by (rewrite Ev; apply both_at; [done|]; apply vv_nodup; [apply Hp1|apply O1, Hp1]).
          unfold pair2 in Ek. apply sorted_eq in Ek as [[= <- <-]|[= <- <-]]; [done|by apply both_sym]. }
        pose proof (T4 (uv F u)) as Hs. rewrite decide_False in Hs.
        * rewrite A in Hs. destruct (Ed1 (uv F u)) as [ue1|]; [|done]. exists ue1. split; [done|]. injection Hs as Hs. congruence.
        * rewrite (Hsp _ ue a b A B Hab). intros [Hg|Hg].
          -- destruct (R8 _ a b (Hpo p Hp) Hbo) as [[_ Hn]|[Hn _]]; [by apply (Hn q)|done].
          -- destruct (R8 _ b a (Hpo p Hp) (both_sym _ _ _ Hbo)) as [[_ Hn]|[Hn _]]; [by apply (Hn q Hq), both_sym|done].
      + rewrite T7 in He; [done|]. intros p u Hp Hu Hj E. apply Hex, Exists_exists. exists p. split; [done|]. apply Exists_exists. exists (w_edge u). split; [apply elem_of_seq; lia|]. rewrite <- Hu, <- E. by destruct u.
    - intros (ue1 & A & B). destruct (T5 e ue1 A) as (ue & C & D & _). rewrite D in B.
      assert (∃ q', q' ∈ out ∧ both q' a b) as (q' & Hq' & Hbo).
      { pose proof (ok_edge_used _ Hok e ue C) as Hj. rewrite B in Hj. unfold sorted_2 in Hj. destruct (b <? a)%N; cbn in Hj.
        - destruct (R6 q b a Hq (both_sym _ _ _ Hb) Hj) as (q' & ? & ?). exists q'. split; [done|by apply both_sym].
        - by apply (R6 q a b Hq). }
      rewrite Eout in Hq'. apply elem_of_list_fmap in Hq' as (p & -> & Hp). pose proof (Hl p Hp) as Hp1. destruct (both_walker _ _ _ Hbo) as (j & Hj & E).
      destruct (comp_at (t_vs (F (w_tet p.1))) (w_edge p.1) j (proj2 Hp1) Hj) as (k & Hk & E'). set (u := Walker (w_tet p.1) k).
      assert (vd L u) as Hu by (split; [apply Hp1|done]). assert (pair2 (vv F u) = (a, b)) as Eu by (rewrite <- E; f_equal; symmetry; exact E').
      pose proof (T6 p u Hp eq_refl Hk) as H. unfold ekey in H. rewrite Eu in H. rewrite H. f_equal. destruct (O5 u Hu) as (ue' & A' & B'). rewrite Eu in B'. eapply O6; [done..|congruence].
  Qed.

  Lemma quads_eq vt vb tris : tri_tets vt vb tris = tris ≫= tri_quads vt vb.
  Proof. done. Qed.
  Lemma sides_eq tris : (tris ≫= edges_of) = tris ≫= tri_sides.
  Proof. done. Qed.
  Lemma tris_eq (l : list (arr4 N)) : l ≫= tris_of = l ≫= tris12.
  Proof. induction l as [|q l IH]; [done|]. cbn [mbind list_bind]. by rewrite tris_of_12, IH. Qed.

  Lemma l_vd vt vb L F sides l : Forall2 (side_ok vt vb L F) sides l → ∀ p, p ∈ l → vd L p.1 ∧ vd L p.2 ∧ twist (vv F p.1) (vv F p.2).
  Proof. intros Hl p (i & Hi)%elem_of_list_lookup. destruct (Forall2_lookup_r _ _ _ _ _ Hl Hi) as (s & _ & A & B & C & _). done. Qed.
  Lemma l_out vt vb L F sides l : Forall2 (side_ok vt vb L F) sides l → side_tets vt vb sides = (λ p, vv F p.1) <$> l.
  Proof. unfold side_tets. induction 1 as [|s p sides l (A & B & C & D) Hl IH]; [done|]. cbn. by rewrite IH, D. Qed.
  Lemma l_ftris vt vb L F sides l : Forall2 (side_ok vt vb L F) sides l → (λ e : N * N, (vt, e.2, e.1)) <$> sides = (λ p, tri3 (vv F p.2)) <$> l.
  Proof. induction 1 as [|s p sides l (A & B & C & D) Hl IH]; [done|]. cbn. apply twist_swap in C. by rewrite IH, C, D. Qed.
  Lemma l_fedges vt vb L F sides l : Forall2 (side_ok vt vb L F) sides l → (sides ≫= λ e : N * N, [(e.2, vt); (vt, e.1)]) = l ≫= λ p, [pair2 (vv F p.1); pair2 (vv F (to_nfe p.1))].
  Proof.
    induction 1 as [|s p sides l (A & B & C & D) Hl IH]; [done|]. cbn [mbind list_bind]. rewrite IH. f_equal. rewrite vv_nfe by apply A. rewrite D. done.
  Qed.
  Lemma l_ltris vt vb (ts : list (N * arr4 N * bool)) (pre : list (arr4 N * bool)) tris : Forall (λ x, x.2 = false) pre → (λ x, (x.1.2, x.2)) <$> ts = pre ++ ((λ q, (q, true)) <$> tri_tets vt vb tris) →
    ∀ t, t ∈ (tris ≫= λ t, [t; swap3 t]) ↔ ∃ x q, (x, q, true) ∈ ts ∧ t = tri3 q.
  Proof.
    intros Hpre E t. assert ((∃ x q, (x, q, true) ∈ ts ∧ t = tri3 q) ↔ ∃ q, q ∈ tri_tets vt vb tris ∧ t = tri3 q) as ->.
    { split.
      - intros (x & q & H & ->). exists q. split; [|done]. assert ((q, true) ∈ (λ x : N * arr4 N * bool, (x.1.2, x.2)) <$> ts) as H' by (apply elem_of_list_fmap; by exists (x, q, true)).
        rewrite E in H'. apply elem_of_app in H' as [H'|H']; [|by apply elem_of_list_fmap in H' as (? & [= ->] & ?)]. rewrite stdpp.list.Forall_forall in Hpre. by apply Hpre in H'.
      - intros (q & H & ->). assert ((q, true) ∈ (λ x : N * arr4 N * bool, (x.1.2, x.2)) <$> ts) as H' by (rewrite E; apply elem_of_app; right; apply elem_of_list_fmap; by exists q).
        apply elem_of_list_fmap in H' as ([[x q'] b] & [= -> ->] & H'). by exists x, q'. }
    unfold tri_tets. setoid_rewrite elem_of_list_bind. split.
    - intros ([[a b] c] & Ht & Hi). rewrite !elem_of_cons, elem_of_nil in Ht. destruct Ht as [->|[->|[]]].
      + exists (A4 a b c vb). split; [|done]. exists (a, b, c). split; [|done]. right. left.
      + exists (A4 b a c vt). split; [|done]. exists (a, b, c). split; [|done]. left.
    - intros (q & ([[a b] c] & Hq & Hi) & ->). exists (a, b, c). split; [|done]. rewrite !elem_of_cons, elem_of_nil in Hq. destruct Hq as [->|[->|[]]]; rewrite !elem_of_cons; cbn; tauto.
  Qed.

  Theorem shell_s m v_side vt vb tris : mesh_ok m → m_track m = true → NoDup v_side → 3 ≤ length v_side →
    replaceable m (side_tets vt vb (ring_sides v_side)) (tri_tets vt vb tris) [(vt, vb); (vb, vt)] →
    (im_npi (m_tets m) + 2 * N.of_nat (length tris) ≤ u32_mod)%N → (im_npi (m_edges m) + 12 * N.of_nat (length tris) ≤ u32_mod)%N →
    ∃ m', shell_transform dflt m v_side vt vb tris = Some m' ∧
      replaced dflt m (side_tets vt vb (ring_sides v_side)) (tri_tets vt vb tris) [(vt, vb); (vb, vt)]
        ((λ e : N * N, (vt, e.2, e.1)) <$> ring_sides v_side) (tris ≫= λ t, [t; swap3 t])
        (ring_sides v_side ≫= λ e : N * N, [(e.2, vt); (vt, e.1)]) (tris ≫= edges_of) m' ∧
      (im_npi (m_tets m') ≤ im_npi (m_tets m) + 2 * N.of_nat (length tris))%N ∧ (im_npi (m_edges m') ≤ im_npi (m_edges m) + 12 * N.of_nat (length tris))%N.
  Proof.
    intros Hok Htr Hnd Hlen Hrp Hnt Hne. destruct v_side as [|h t]; [cbn in Hlen; lia|].
    set (w := Walker 0%N 0). pose proof (view_exists m (tet_new (A4 vt vt vt vt) (A4 w w w w) (A6 0%N 0%N 0%N 0%N 0%N 0%N) dflt)) as Hmv. set (L := dom _) in Hmv. set (F := λ i, _) in Hmv. clearbody L F. clear w.
    destruct (open_view m L F Hmv (closed_open m Hok Htr)) as [Hst Hop]. pose proof Hop as [O1 O2 O3 O4 O5 O6].
    destruct (sides_list m L F vt vb (ring_sides (h :: t)) Hok Hmv (rp_out _ _ _ _ Hrp)) as (l & Hl).
    destruct (sides_tets _ _ _ _ _ _ _ _ Hop Hl) as [Hnt' Hx']; [by apply ring_nodup|intros x y; by apply ring_rev|].
    pose proof (l_vd _ _ _ _ _ _ Hl) as Hv. pose proof (l_out _ _ _ _ _ _ Hl) as Eout.
    destruct (ring_split h t) as (l0 & z & Eht & Ering & Hl0). pose proof Hl as Hlr. rewrite Ering in Hl. apply Forall2_app_inv_l in Hl as (la & lb & Hla & Hlb & ->).
    apply Forall2_cons_inv_l in Hlb as ([wz wz'] & lb' & Hz & Hlb & ->). apply Forall2_nil_inv_l in Hlb as ->.
    destruct Hz as (Z1 & Z2 & Z3 & Z4). cbn [fst snd] in Z1, Z2, Z3, Z4.
    (* all but the last side *)
    destruct (takes_s _ _ _ _ vt _ _ la L F _ _ m ∅ (zip l0 t) Hst Hop) as (m1 & em1 & L1 & F1 & Ed1 & tm1 & E1 & Hst1 & Hop1 & Htk1).
    { eapply Forall2_impl; [exact Hla|]. intros s p (_ & _ & _ & D). by rewrite D. }
    { intros p Hp. apply Hv, elem_of_app. by left. }
    { rewrite fmap_app in Hnt'. by apply NoDup_app in Hnt' as (? & _ & _). }
    { intros p q Hp Hq. apply Hx'; apply elem_of_app; by left. }
    apply took_tooks in Htk1. assert (w_tet wz ∈ L1) as Hz1.
    { apply (ts_L _ _ _ _ _ _ _ _ _ Htk1). split; [apply Z1|]. intros p Hp E. rewrite fmap_app in Hnt'. apply NoDup_app in Hnt' as (_ & H & _). apply (H (w_tet p.1)); [apply elem_of_list_fmap; by exists p|]. rewrite E. by left. }
    assert (w_tet wz' ∈ L1) as Hz1'.
    { apply (ts_L _ _ _ _ _ _ _ _ _ Htk1). split; [apply Z2|]. intros p Hp E. apply (Hx' (wz, wz') p); [apply elem_of_app; right; by left|apply elem_of_app; by left|done]. }
    pose proof (ts_F _ _ _ _ _ _ _ _ _ Htk1) as HF1. assert (∀ x, vv F1 x = vv F x) as Hvv1 by (intros; by apply vv_sbf).
    assert (vv F (to_perm wz P1320) = A4 vt vb z h) as Esp.
    { rewrite vv_perm by apply Z1. by rewrite Z4. }
    assert (vd L (to_perm wz P1320)) as Hspv by (by apply vd_perm).
    assert (NoDup (list4 (A4 h vt z vb))) as Hndz by (rewrite <- Z4; apply vv_nodup; [apply Z1|apply O1, Z1]).
    assert (vt ≠ vb) as Htb by (apply NoDup4 in Hndz; cbn in Hndz; tauto).
    assert (∀ e ue a b, im_get (m_edges m) e = Some ue → ue_vs ue = sorted_2 (a, b) → a ≠ b → Some (uv F (to_perm wz P1320)) = Some e ↔ (a, b) ∈ [(vt, vb); (vb, vt)] ∨ (b, a) ∈ [(vt, vb); (vb, vt)]) as Hsp.
    { intros e ue a b A B Hab. destruct (O5 _ Hspv) as (ue' & A' & B'). rewrite Esp in B'. unfold pair2 in B'. cbn [q0 q1] in B'. rewrite !elem_of_cons, !elem_of_nil. split.
      - intros [= <-]. rewrite A in A'. injection A' as <-. rewrite B in B'. apply sorted_eq in B' as [E|E]; tauto.
      - intros H. f_equal. eapply O6; [done..|]. rewrite B, B'. apply sorted_eq. clear -H. destruct H as [[H|[H|[]]]|[H|[H|[]]]]; injection H as -> ->; tauto. }
    destruct (take_s _ _ true _ _ L1 F1 Ed1 _ _ tm1 m1 em1 z h vt wz wz' Hst1 Hop1) as (m2 & em2 & L2 & F2 & Ed2 & tm2 & E2 & Hst2 & Hop2 & Htk2).
    { by split; [|apply Z1]. } { by split; [|apply Z2]. } { by rewrite Hvv1, Z4. } { by rewrite !Hvv1. }
    { intros _ u Hu Hne' E. rewrite !(uv_sbf F F1) in E by done. assert (vd L u) as HuL by (split; [apply (ts_L _ _ _ _ _ _ _ _ _ Htk1), Hu|apply Hu]).
      destruct (O5 _ Hspv) as (ue & A & B). destruct (O5 u HuL) as (ue' & A' & B'). rewrite E, A in A'. injection A' as <-. rewrite B, Esp in B'. unfold pair2 in B'. cbn [q0 q1] in B'.
      assert (both (t_vs (F (w_tet u))) vt vb) as Hb.
      { assert (both (t_vs (F (w_tet u))) (q0 (vv F u)) (q1 (vv F u))) as Hb by (apply both_at; [apply HuL|apply O1, HuL]). apply sorted_eq in B' as [E'|E']; apply pair_equal_spec in E' as [E1' E2']; rewrite E1', E2'; [exact Hb|by apply both_sym]. }
      destruct (both_walker _ _ _ Hb) as (j & Hj & Ej).
      destruct (spine_ring m L F (la ++ [(wz, wz')]) vt vb (tri_tets vt vb tris) [(vt, vb); (vb, vt)] (wz, wz') (Walker (w_tet u) j) Hok Hmv Hop) as (p & Hp & Ep); [intros p Hp; by apply Hv|by rewrite <- Eout|by left|by right; left|apply elem_of_app; right; by left| |by split; [apply HuL|]|done|].
      - cbn [fst]. rewrite Z4. split; [right; by left|]. split; [do 3 right; by left|done].
      - cbn in Ep. apply elem_of_app in Hp as [Hp|Hp%elem_of_list_singleton]; [|subst p; by apply Hne']. by apply (proj2 (proj1 (ts_L _ _ _ _ _ _ _ _ _ Htk1 _) (proj1 Hu)) p Hp). }
    pose proof (taken_tooks 0%N (m_trimap m) _ _ _ _ _ _ _ _ _ _ _ _ _ _ Hop (λ p Hp, proj1 (Hv p Hp)) Hz1 Htk1 Htk2) as Htk. set (l := la ++ [(wz, wz')]) in *.
    assert (∀ p, p ∈ l → vd L p.1) as Hv1 by (intros p Hp; by apply Hv).
    pose proof (knows_after m L F _ l _ _ _ _ _ _ _ Hok Hmv Hop Htk Hv1 Eout Hrp Hsp) as Hkn. pose proof (new_fine m _ _ _ Hok Hrp) as Hfine. pose proof (new_free m L F _ l _ _ _ _ _ _ _ Hmv Hop Htk Hv1 Eout Hrp) as Hfree.
    destruct (puts_s _ _ dflt _ _ vt vb tris _ _ L2 F2 Ed2 _ tm2 m2 em2 Hst2 Hop2 Hfine) as (m3 & em3 & ts & L3 & F3 & Ed3 & Vt3 & tm3 & E3 & Hst3 & Hop3 & Hkn3 & Hput & Ets).
    { rewrite <- tris_eq. apply (rp_once _ _ _ _ Hrp). } { rewrite <- tris_eq. done. } { done. } { done. } { done. }
    exists m3. split.
    { unfold shell_transform. change (zip (h :: t) (drop 1 (h :: t) ++ take 1 (h :: t))) with (ring_sides (h :: t)). rewrite Ering, mfoldl_app.
      rewrite (mfoldl_ext _ (take_out vt false) (zip l0 t)); [rewrite E1; cbn [mbind option_bind mfoldl]|].
      - rewrite bool_decide_eq_true_2 by done. rewrite E2. cbn [mbind option_bind]. by rewrite E3.
      - intros s [x y] Hxy. rewrite bool_decide_eq_false_2; [done|]. cbn. intros [= ->]. apply elem_of_zip_r in Hxy. apply stdpp.list.NoDup_cons in Hnd as [Hn _]. done. }
    split; [|split; [apply (st_nt _ _ _ _ _ _ _ _ _ _ _ _ Hst3)|apply (st_ne _ _ _ _ _ _ _ _ _ _ _ _ Hst3)]].
    eapply (finish dflt m L F _ l); try done.
    - intros p Hp. by split; apply Hv.
    - apply (f_equal (fmap fst)) in Ets. rewrite <- !list_fmap_compose in Ets. rewrite quads_eq. symmetry. etransitivity; [exact Ets|]. clear. induction (tris ≫= tri_quads vt vb) as [|q k IH]; [done|]. cbn. f_equal. exact IH.
    - by apply (l_ftris vt vb L F).
    - apply (l_ltris vt vb ts [] tris); [constructor|exact Ets].
    - by apply (l_fedges vt vb L F).
  Qed.

  Theorem cap_s m v_side vt vb tris first last : mesh_ok m → m_track m = true → NoDup v_side → head v_side = Some first → stdpp.list.last v_side = Some last →
    replaceable m (side_tets vt vb (path_sides v_side)) (A4 first last vt vb :: tri_tets vt vb tris) [] →
    (im_npi (m_tets m) + 1 + 2 * N.of_nat (length tris) ≤ u32_mod)%N → (im_npi (m_edges m) + 6 + 12 * N.of_nat (length tris) ≤ u32_mod)%N →
    ∃ m', cap_transform dflt m v_side vt vb tris = Some m' ∧
      replaced dflt m (side_tets vt vb (path_sides v_side)) (A4 first last vt vb :: tri_tets vt vb tris) []
        ((λ e : N * N, (vt, e.2, e.1)) <$> path_sides v_side) (tris ≫= λ t, [t; swap3 t])
        (path_sides v_side ≫= λ e : N * N, [(e.2, vt); (vt, e.1)]) (tris ≫= edges_of) m' ∧
      (im_npi (m_tets m') ≤ im_npi (m_tets m) + 1 + 2 * N.of_nat (length tris))%N ∧ (im_npi (m_edges m') ≤ im_npi (m_edges m) + 6 + 12 * N.of_nat (length tris))%N.
  Proof.
    intros Hok Htr Hnd Hfi Hla Hrp Hnt Hne. set (q := A4 first last vt vb) in *.
    set (w := Walker 0%N 0). pose proof (view_exists m (tet_new (A4 vt vt vt vt) (A4 w w w w) (A6 0%N 0%N 0%N 0%N 0%N 0%N) dflt)) as Hmv. set (L := dom _) in Hmv. set (F := λ i, _) in Hmv. clearbody L F. clear w.
    destruct (open_view m L F Hmv (closed_open m Hok Htr)) as [Hst Hop]. pose proof Hop as [O1 O2 O3 O4 O5 O6].
    destruct (sides_list m L F vt vb (path_sides v_side) Hok Hmv (rp_out _ _ _ _ Hrp)) as (l & Hl).
    destruct (sides_tets _ _ _ _ _ _ _ _ Hop Hl) as [Hnt' Hx']; [by apply path_nodup|intros x y; by apply path_rev|].
    pose proof (l_vd _ _ _ _ _ _ Hl) as Hv. pose proof (l_out _ _ _ _ _ _ Hl) as Eout.
    destruct (takes_s _ _ _ _ vt _ _ l L F _ _ m ∅ (path_sides v_side) Hst Hop) as (m1 & em1 & L1 & F1 & Ed1 & tm1 & E1 & Hst1 & Hop1 & Htk); [|done..|].
    { eapply Forall2_impl; [exact Hl|]. intros s p (_ & _ & _ & D). by rewrite D. }
    apply took_tooks in Htk.
    assert (∀ p, p ∈ l → vd L p.1) as Hv1 by (intros p Hp; by apply Hv).
    assert (∀ e ue a b, im_get (m_edges m) e = Some ue → ue_vs ue = sorted_2 (a, b) → a ≠ b → None = Some e ↔ (a, b) ∈ ([] : list (N * N)) ∨ (b, a) ∈ ([] : list (N * N))) as Hsp.
    { intros e ue a b _ _ _. rewrite !elem_of_nil. split; [done|tauto]. }
    pose proof (knows_after m L F _ l _ _ _ _ _ _ _ Hok Hmv Hop Htk Hv1 Eout Hrp Hsp) as Hkn. pose proof (new_fine m _ _ _ Hok Hrp) as Hfine. pose proof (new_free m L F _ l _ _ _ _ _ _ _ Hmv Hop Htk Hv1 Eout Hrp) as Hfree.
    pose proof (rp_once _ _ _ _ Hrp) as Honce. rewrite tris_eq in Honce. setoid_rewrite tris_eq in Hfree. cbn [mbind list_bind] in Honce, Hfree. apply NoDup_app in Honce as (_ & Hdis & Honce).
    destruct (Hfine q) as (X1 & X2 & X3); [by left|].
    destruct (insert_lock_s _ _ dflt false _ _ _ L1 F1 Ed1 _ _ tm1 m1 em1 q Hst1 Hop1 X1 X2 X3) as (m2 & em2 & id & F2 & Ed2 & Vt2 & tm2 & E2 & Hst2 & Hop2 & Hkn2 & Hput2).
    { intros w Hw H. apply (Hfree w Hw), elem_of_app. by left. } { done. } { lia. } { lia. }
    assert (∀ x, is_Some (im_get (m_verts m) x) → is_Some (Vt2 x)) as HVt.
    { intros x Hx. destruct (decide (x ∈ list4 q)) as [Hi|Hi].
      - destruct (pu_vnew _ _ _ _ _ _ _ _ _ _ _ Hput2 x id q false) as (vt0 & w & id' & q' & b' & A & B & _); [by left|done|]. by eexists.
      - rewrite (pu_vold _ _ _ _ _ _ _ _ _ _ _ Hput2); [done|]. by intros id' q' b' [= -> -> ->]%elem_of_list_singleton. }
    destruct (puts_s _ _ dflt (λ x y, ∃ q', q' ∈ q :: tri_tets vt vb tris ∧ both q' x y) _ vt vb tris _ _ ({[id]} ∪ L1) F2 Ed2 Vt2 tm2 m2 em2 Hst2 Hop2) as (m3 & em3 & ts & L3 & F3 & Ed3 & Vt3 & tm3 & E3 & Hst3 & Hop3 & Hkn3 & Hput & Ets); [| | |done|lia|lia|].
    { intros q' Hq'. destruct (Hfine q') as (Y1 & Y2 & Y3); [by right|]. split; [done|]. split; [intros x Hx; by apply HVt, Y2|done]. }
    { exact Honce. }
    { intros w [Hw He] H. destruct (decide (w_tet w ∈ L1)) as [Hi|Hi].
      - apply (Hfree w); [done|]. apply elem_of_app. right. assert (vv F1 w = vv F2 w) as ->; [|exact H]. unfold vv. by rewrite (proj1 (pu_old _ _ _ _ _ _ _ _ _ _ _ Hput2 _ Hi)).
      - apply elem_of_union in Hw as [Hw%elem_of_singleton|?]; [|done]. apply (Hdis (tri3 (vv F2 w))); [|exact H]. unfold vv. rewrite Hw, (proj1 (pu_tet _ _ _ _ _ _ _ _ _ _ _ Hput2 id q false (elem_of_list_here _ _))). by apply elem_tris12. }
    exists m3. split.
    { unfold cap_transform. change (zip v_side (drop 1 v_side)) with (path_sides v_side). rewrite E1. cbn [mbind option_bind fst snd]. rewrite Hfi, Hla. cbn [mbind option_bind].
      unfold insert_lock in E2. fold q. destruct (insert_tet dflt m1 q em1) as [[[m2' em2'] w2]|]; [|done]. cbn [mbind option_bind] in E2 |- *. injection E2 as -> -> _. by rewrite E3. }
    split; [|split; [eapply N.le_trans; [apply (st_nt _ _ _ _ _ _ _ _ _ _ _ _ Hst3)|lia]|eapply N.le_trans; [apply (st_ne _ _ _ _ _ _ _ _ _ _ _ _ Hst3)|lia]]].
    pose proof (put_trans _ _ _ _ _ _ _ _ _ _ _ _ _ _ _ _ _ Hput2 Hput) as Hp. cbn [app] in Hp.
    eapply (finish dflt m L F _ l); try done.
    - intros p Hp'. by split; apply Hv.
    - apply (f_equal (fmap fst)) in Ets. rewrite <- !list_fmap_compose in Ets. rewrite quads_eq. cbn. f_equal. symmetry. etransitivity; [exact Ets|]. clear. induction (tris ≫= tri_quads vt vb) as [|q k IH]; [done|]. cbn. f_equal. exact IH.
    - by apply (l_ftris vt vb L F).
    - apply (l_ltris vt vb _ [(q, false)] tris); [by repeat constructor|]. cbn. f_equal. exact Ets.
    - by apply (l_fedges vt vb L F).
  Qed.
End run.
